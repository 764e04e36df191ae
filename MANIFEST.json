{
 "claims": [
  {
   "property": "C01",
   "status": "proved",
   "theorems": [
    "C01_lookup_exact"
   ],
   "note": ""
  },
  {
   "property": "C02",
   "status": "proved",
   "theorems": [
    "C02_one_owner",
    "C02_move"
   ],
   "note": ""
  },
  {
   "property": "C03",
   "status": "proved",
   "theorems": [
    "C03_fresh_id",
    "C03_ids_absolute"
   ],
   "note": ""
  },
  {
   "property": "C04",
   "status": "proved",
   "theorems": [
    "C04_id_stable",
    "C04_set_id_rejected"
   ],
   "note": ""
  },
  {
   "property": "C05",
   "status": "proved",
   "theorems": [
    "C05_rejected_attach",
    "C05_move_refuted"
   ],
   "note": "A rejected attach of an unattached item leaves everything alone (C05_rejected_attach). For an item of another environment the claim is false: C05_move_refuted."
  },
  {
   "property": "C06",
   "status": "proved",
   "theorems": [
    "C06_detach_flat"
   ],
   "note": ""
  },
  {
   "property": "C07",
   "status": "proved",
   "theorems": [
    "C07_detach_exact"
   ],
   "note": ""
  },
  {
   "property": "C08",
   "status": "proved",
   "theorems": [
    "C08_single_parent",
    "C08_add_child",
    "C08_set_frame"
   ],
   "note": ""
  },
  {
   "property": "C09",
   "status": "proved",
   "theorems": [
    "C09_links_inside",
    "C09_unchecked_refuted"
   ],
   "note": "Under the API contract (legal); C09_unchecked_refuted shows that the contract is needed."
  },
  {
   "property": "C10",
   "status": "proved",
   "theorems": [
    "C10_tree",
    "frame_cycle_refuted"
   ],
   "note": "Under the API contract; frame_cycle_refuted: without it addChild creates cycles."
  },
  {
   "property": "C11",
   "status": "proved",
   "theorems": [
    "C11_add",
    "C11_remove",
    "C11_add_again",
    "C11_duplicate_refuted"
   ],
   "note": "C11_duplicate_refuted: a link can be stored twice when the layer has several parents. C11_add_again covers the remaining cases."
  },
  {
   "property": "C12",
   "status": "proved",
   "theorems": [
    "C12_arity",
    "C12_full_throws",
    "C12_environment_interface_refuted"
   ],
   "note": "For the operator interface; C12_environment_interface_refuted: Environment::addInput/addOutput do not check the arity."
  },
  {
   "property": "C13",
   "status": "proved",
   "theorems": [
    "C13_still_generated",
    "C13_refuted"
   ],
   "note": "The claim is false (C13_refuted): the generator link is not removed. C13_still_generated states what happens instead."
  },
  {
   "property": "C14",
   "status": "proved",
   "theorems": [
    "C14_generator",
    "C14_refuted"
   ],
   "note": "C14_refuted: two generators are possible through the environment interface; C14_generator is the guarded claim."
  },
  {
   "property": "C15",
   "status": "proved",
   "theorems": [
    "C15_mirror",
    "C15_mirror_later",
    "C15_destroy"
   ],
   "note": ""
  },
  {
   "property": "C16",
   "status": "proved",
   "theorems": [
    "C16_registration",
    "C16_registration_exact",
    "C16_layers_refuted",
    "C16_orphan_refuted"
   ],
   "note": "Layer links and unconnected frame trees are not published (C16_layers_refuted, C16_orphan_refuted); complete without them (C16_registration_exact)."
  },
  {
   "property": "C17",
   "status": "proved",
   "theorems": [
    "C17_unregistration",
    "C17_items_removed",
    "C17_refuted",
    "C17_no_further_events"
   ],
   "note": "False for maps on the root node (C17_refuted), layer links and unconnected frames; C17_unregistration is the guarded claim, C17_items_removed and C17_no_further_events are unconditional."
  },
  {
   "property": "C18",
   "status": "proved",
   "theorems": [
    "C18_announced"
   ],
   "note": ""
  },
  {
   "property": "C19",
   "status": "proved",
   "theorems": [
    "C19_delivery",
    "C19_silent",
    "C19_destroy"
   ],
   "note": ""
  },
  {
   "property": "C20",
   "status": "proved",
   "theorems": [
    "C20_unique",
    "C20_no_add_and_remove",
    "C20_no_update_before_remove",
    "C20_sublist"
   ],
   "note": ""
  },
  {
   "property": "C21",
   "status": "proved",
   "theorems": [
    "C21_sync",
    "C21_rounds",
    "C21_initial",
    "C21_reuse_refuted",
    "C21_layer_refuted"
   ],
   "note": "C21_sync: the queue's output, applied to a replica that agreed with the source at the start of the window, makes it agree at the end, for every history in between; C21_rounds: any number of rounds; C21_initial: the first round after registration. The full claim is false of the code: C21_reuse_refuted (an id removed and added again cancels) and C21_layer_refuted (removing an absent layer link cancels a later addition), hence the guards no_reuse and layers_clean."
  },
  {
   "property": "C22",
   "status": "proved",
   "theorems": [
    "C22_apply_any",
    "C22_null_update_refuted",
    "C22_self_link_refuted",
    "C22_cycle_refuted"
   ],
   "note": "For arbitrary sequences of well typed events without self links. C22_self_link_refuted, C22_cycle_refuted and C22_null_update_refuted show that the remaining provisos (no self links, acyclicity of the sent tree, no update of an unknown item while listeners are registered) are needed."
  },
  {
   "property": "C23",
   "status": "proved",
   "theorems": [
    "C23_dispatch",
    "C23_distinct",
    "C23_emitted",
    "C23_emitted_destroy"
   ],
   "note": ""
  },
  {
   "property": "C24",
   "status": "proved",
   "theorems": [
    "C24_placed",
    "C24_relative",
    "C24_self",
    "C24_parent",
    "C24_compose",
    "C24_inverse",
    "C24_map_round_trip"
   ],
   "note": "Exact rational affine transforms; also C24_map_round_trip for toMap/fromMap. The variant with uncertainty is not modelled."
  },
  {
   "property": "C25",
   "status": "proved",
   "theorems": [
    "C25_lossless",
    "C25_clash_refuted",
    "C25_prefix_refuted"
   ],
   "note": "C25_lossless: for every reachable environment whose items write distinct files and have no number LONG_MAX at the end of an id, saving and loading in any consistent world gives the same items, links (in order) and root, and leaves the rest of the world alone. The full claim is false: C25_clash_refuted (two maps share a file), C25_prefix_refuted (the environment prefix is lost). Labels and the class codecs are parameters."
  },
  {
   "property": "C26",
   "status": "proved",
   "theorems": [
    "C26_collision",
    "C26_distinct",
    "C26_refuted"
   ],
   "note": "False as stated: C26_refuted gives colliding ids; C26_collision characterises all collisions and C26_distinct proves the claim for names without '_'."
  },
  {
   "property": "C27",
   "status": "proved",
   "theorems": [
    "C27_registered",
    "C27_namespace",
    "C27_plain",
    "C27_refuted"
   ],
   "note": "First half proved (C27_registered, C27_namespace); the rejection half is false of the code (C27_refuted) and C27_plain describes exactly which unregistered names are accepted."
  },
  {
   "property": "C28",
   "status": "proved",
   "theorems": [
    "C28_counter",
    "C28_next",
    "C28_limit_refuted"
   ],
   "note": "C28_counter: for every document that can be loaded, also hand-written ones; C28_next: every generated id then uses the next number, as long as the C++ type int suffices. C28_limit_refuted: an id with number LONG_MAX makes loading undefined."
  },
  {
   "property": "C29",
   "status": "proved",
   "theorems": [
    "C29_destroy"
   ],
   "note": ""
  },
  {
   "property": "C30",
   "status": "proved",
   "theorems": [
    "C30_safe",
    "C30_alive",
    "C30_held_survives",
    "C30_move_refuted"
   ],
   "note": "Under the API contract; C30_move_refuted: moving an item between environments without holding a reference is a use after free."
  },
  {
   "property": "C31",
   "status": "proved",
   "theorems": [
    "C31_inside",
    "C31_outside",
    "C31_negative_refuted",
    "C31_round_trip",
    "C31_contains",
    "C31_sub_cells"
   ],
   "note": "Exact arithmetic over the rationals; the conversion of out-of-range doubles to size_t is an oracle. C31_outside assumes the wrap-around conversion of x86-64; C31_negative_refuted shows that the C++ standard alone is not enough."
  },
  {
   "property": "C32",
   "status": "proved",
   "theorems": [
    "C32_extents",
    "C32_refuted"
   ],
   "note": "The claim is false of the code: C32_refuted (for every grid the extents are one cell too large in both directions). C32_extents states the exact extents."
  },
  {
   "property": "C33",
   "status": "proved",
   "theorems": [
    "C33_line",
    "C33_positions",
    "C33_overflow_refuted"
   ],
   "note": "For spans up to a third of INT_MAX; beyond that the int arithmetic may overflow (C33_overflow_refuted)."
  },
  {
   "property": "C34",
   "status": "proved",
   "theorems": [
    "C34_rectangle",
    "C34_corners",
    "C34_missed_row_refuted"
   ],
   "note": "forEachInRectangle. Strengthened: no cell is visited twice in the whole call, no assertion fails, and the visited cells are characterised exactly, except for the degenerate case of C34_missed_row_refuted. Cosine and sine are arbitrary rationals."
  },
  {
   "property": "C35",
   "status": "proved",
   "theorems": [
    "C35_refines",
    "C35_no_leak",
    "C35_wrong_type_refuted"
   ],
   "note": "Refinement to finite maps for all programs and allocators; C35_wrong_type_refuted: the documented exception for a wrong type is undefined behaviour in the code."
  },
  {
   "property": "C36",
   "status": "proved",
   "theorems": [
    "C36_register",
    "C36_refused",
    "C36_set",
    "C36_unknown",
    "C36_make",
    "C36_capacity_refuted"
   ],
   "note": "Every registration gets a fresh id below 256, can be read back and leaves the other classes alone; refused registrations change nothing. The capacity is only half of the documented one: C36_capacity_refuted."
  },
  {
   "property": "C37",
   "status": "proved",
   "theorems": [
    "C37_statistics",
    "C37_class_255_refuted"
   ],
   "note": "Proved for all measurement sequences with classes below 255; class 255 is written out of bounds (C37_class_255_refuted)."
  },
  {
   "property": "C38",
   "status": "proved",
   "theorems": [
    "C38_floor",
    "C38_exact",
    "C38_values",
    "C38_within",
    "C38_range_refuted"
   ],
   "note": "On IEEE doubles (Flocq): the stored byte is the largest one whose value does not exceed the probability, reading and writing back is exact; probabilities outside of [0,1] are refuted (C38_range_refuted)."
  },
  {
   "property": "C39",
   "status": "proved",
   "theorems": [
    "C39_fire",
    "C39_exact",
    "C39_start",
    "C39_order_refuted",
    "C39_obstacle_start_refuted",
    "C39_closest_refuted"
   ],
   "note": "Termination, at most one expansion per cell, no access outside of the grid, soundness and closure of the expansion and the choice of the start cell are proved for all maps with non-negative deviations. 'Exactly the cells connected to the start' holds if the answer of the search does not depend on the neighbour it starts from (C39_exact) and is false in general (C39_order_refuted); the fire can start on an obstacle and not on the closest patch (C39_obstacle_start_refuted, C39_closest_refuted)."
  },
  {
   "property": "C40",
   "status": "proved",
   "theorems": [
    "C40_search",
    "C40_negative_refuted"
   ],
   "note": "All patch lists with non-negative deviations; a negative one makes the loop endless (C40_negative_refuted)."
  },
  {
   "property": "C41",
   "status": "proved",
   "theorems": [
    "C41_dilation",
    "C41_probability_refuted"
   ],
   "note": "Exact dilation of the obstacle cells for all maps, scales (rational) and radii. The probability is written to the source cells instead of the grown ones (C41_probability_refuted)."
  },
  {
   "property": "C42",
   "status": "proved",
   "theorems": [
    "C42_objects",
    "C42_terrains",
    "C42_max_value_refuted",
    "C42_unregistered_refuted"
   ],
   "note": "ObjectGrowing for every irreflexive transitive policy, TraversabilityGrowClasses for every registry; values equal to the size of the policy table and unregistered classes are undefined behaviour (C42_max_value_refuted, C42_unregistered_refuted)."
  },
  {
   "property": "C43",
   "status": "proved",
   "theorems": [
    "C43_mean",
    "C43_refuted"
   ],
   "note": "Window mean proved for neighbourhood sizes up to 2; for every larger size the operator reads outside of the grid (C43_refuted)."
  },
  {
   "property": "C44",
   "status": "proved",
   "theorems": [
    "C44_safe"
   ],
   "note": "For all maps up to 2^30 cells per side and widths up to 46340 cells (beyond that the int square overflows)."
  },
  {
   "property": "C45",
   "status": "proved",
   "theorems": [
    "C45_radial",
    "C45_radial_refuted",
    "C45_box",
    "C45_box_refuses",
    "C45_box_refuted"
   ],
   "note": "In-bounds proved for the offsets and points the tables were computed for; neither table checks its arguments correctly (C45_radial_refuted, C45_box_refuted)."
  },
  {
   "property": "C46",
   "status": "proved",
   "theorems": [
    "C46_iterate",
    "C46_lists",
    "C46_new_handle",
    "C46_erase",
    "C46_copy",
    "C46_move_refuted"
   ],
   "note": "Every history of list-grid operations behaves like one list per cell. Exception: erasing the first element of a cell after its list was moved (C46_move_refuted); the copy constructor reads an uninitialised pool and is not modelled."
  },
  {
   "property": "C47",
   "status": "proved",
   "theorems": [
    "C47_total",
    "C47_count",
    "C47_extents",
    "C47_index_covers",
    "C47_index",
    "C47_reindex",
    "C47_move_refuted",
    "C47_move_index_refuted",
    "C47_erase_refuted",
    "C47_assign_refuted"
   ],
   "note": "Count, index and extents after every history; move, erase and assignment break parts of it (refuted with witnesses)."
  },
  {
   "property": "C48",
   "status": "proved",
   "theorems": [
    "C48_roundtrip",
    "C48_patch"
   ],
   "note": "Round trip of writeMap/readMap for every grid and every patch codec; the field store of a patch is covered by C48_patch."
  },
  {
   "property": "C49",
   "status": "proved",
   "theorems": [
    "C49_hull",
    "C49_cover",
    "C49_count",
    "C49_variance",
    "C49_symmetric",
    "C49_sum",
    "C49_sum_mean",
    "C49_sum_symmetric",
    "C49_index",
    "C49_sum_symmetric_refuted",
    "C49_count_refuted",
    "C49_refused_refuted"
   ],
   "note": "KALMAN: hull, cover, deviation and order independence proved; counts add up unless free meets occupied space (refuted there). SUM: hull, counts, mean; order independence fails when one interval contains the other (refuted, guarded version proved). Real arithmetic; the model SLOPE is not modelled."
  },
  {
   "property": "C50",
   "status": "proved",
   "theorems": [
    "C50_block",
    "C50_two_refuted",
    "C50_unmatched_refuted",
    "C50_labels_are_ghosts",
    "C50_no_loss",
    "C50_unmatched",
    "C50_contained",
    "C50_single",
    "C50_where",
    "C50_one_match"
   ],
   "note": "No information lost for every merge; exactly one patch for vertical patches without free space, and whenever at most one patch matches; refuted for uncertain surfaces (C50_two_refuted) and with free space (C50_unmatched_refuted)."
  },
  {
   "property": "C51",
   "status": "proved",
   "theorems": [
    "C51_terminates",
    "C51_forward",
    "C51_x_axis_refuted"
   ],
   "note": "Termination, edge-connected cells inside of the grid and the exit next to the last cell are proved for all rays; that all moves are in the direction of the ray is proved for rays that are not parallel to the x axis and false for those (C51_x_axis_refuted)."
  },
  {
   "property": "C52",
   "status": "proved",
   "theorems": [
    "C52_prefix",
    "C52_empty_refuted"
   ],
   "note": "For non-empty prefixes; C52_empty_refuted: undefined behaviour for the empty prefix."
  },
  {
   "property": "C53",
   "status": "proved",
   "theorems": [
    "C53_parts",
    "C53_plain"
   ],
   "note": ""
  },
  {
   "property": "C54",
   "status": "proved",
   "theorems": [
    "C54_read_write",
    "C54_exact",
    "C54_range_refuted",
    "C54_remission_refuted",
    "C54_lost_refuted",
    "C54_trailing_space_refuted"
   ],
   "note": "Proved for ranges below 2^31 and stored remissions up to 2^24, for every text format of floating point numbers that can be read back; larger values and remissions of lines with a different number of ranges are not restored (C54_range_refuted, C54_remission_refuted, C54_lost_refuted)."
  },
  {
   "property": "C55",
   "status": "proved",
   "theorems": [
    "C55_lookups_agree"
   ],
   "note": ""
  },
  {
   "property": "C56",
   "status": "proved",
   "theorems": [
    "C56_round_trip"
   ],
   "note": "All registries reachable by the two registration calls."
  },
  {
   "property": "C57",
   "status": "proved",
   "theorems": [
    "C57_worst_class"
   ],
   "note": "All registries and all sets of covered cells with registered classes below 255."
  },
  {
   "property": "C58",
   "status": "proved",
   "theorems": [
    "C58_closes",
    "C58_class_255_refuted"
   ],
   "note": "Chain of obstacles for every close pair, frame condition for all cells; cells of class 255 become obstacles in any case (C58_class_255_refuted)."
  },
  {
   "property": "C59",
   "status": "proved",
   "theorems": [
    "C59_box_distance",
    "C59_edge_refuted",
    "C59_dist",
    "C59_recompute",
    "C59_tiny_refuted"
   ],
   "note": "Proved except for points in the last tenth of a cell of the range, where it is false (C59_edge_refuted)."
  },
  {
   "property": "C60",
   "status": "proved",
   "theorems": [
    "C60_classes",
    "C60_small_output_refuted"
   ],
   "note": "The plane fit is an arbitrary non-negative function of the points. An output grid smaller than the input is written out of bounds (C60_small_output_refuted)."
  },
  {
   "property": "C61",
   "status": "proved",
   "theorems": [
    "C61_safe"
   ],
   "note": "Over rational heights."
  },
  {
   "property": "C62",
   "status": "proved",
   "theorems": [
    "C62_cells_on_ray",
    "C62_direction_refuted",
    "C62_scale_refuted"
   ],
   "note": "Proved for cells of size 1 and rays with negative directions; false for other directions and other cell sizes (C62_direction_refuted, C62_scale_refuted)."
  },
  {
   "property": "C63",
   "status": "proved",
   "theorems": [
    "C63_attach_named"
   ],
   "note": ""
  },
  {
   "property": "C64",
   "status": "proved",
   "theorems": [
    "C64_remove_child",
    "C64_detach_frame"
   ],
   "note": ""
  },
  {
   "property": "C65",
   "status": "proved",
   "theorems": [
    "C65_add_input",
    "C65_add_output",
    "C65_remove",
    "C65_set_input",
    "C65_set_output"
   ],
   "note": "Under the API contract for adding; removing needs nothing but live arguments."
  },
  {
   "property": "C66",
   "status": "proved",
   "theorems": [
    "C66_attach_map"
   ],
   "note": "For a map that is not attached yet; a map of another environment is covered by C02 and C30."
  },
  {
   "property": "C67",
   "status": "proved",
   "theorems": [
    "C67_set_content"
   ],
   "note": "The content of an item is one opaque value."
  },
  {
   "property": "C68",
   "status": "proved",
   "theorems": [
    "C68_smart_pointers"
   ],
   "note": ""
  },
  {
   "property": "C69",
   "status": "proved",
   "theorems": [
    "C69_new_environment"
   ],
   "note": ""
  },
  {
   "property": "C70",
   "status": "proved",
   "theorems": [
    "C70_cut",
    "C70_aligned",
    "C70_no_variance_refuted",
    "C70_boxes"
   ],
   "note": "For clouds whose attributes come with variances; without variances the operator dereferences a null pointer (C70_no_variance_refuted)."
  },
  {
   "property": "C71",
   "status": "proved",
   "theorems": [
    "C71_merge",
    "C71_aligned",
    "C71_mixed",
    "C71_variances_refuted"
   ],
   "note": "Variances and attributes are not merged (C71_variances_refuted)."
  },
  {
   "property": "C72",
   "status": "proved",
   "theorems": [
    "C72_extents"
   ],
   "note": ""
  },
  {
   "property": "C73",
   "status": "proved",
   "theorems": [
    "C73_transformed",
    "C73_plane",
    "C73_plane_refuted"
   ],
   "note": "Proved for three dimensional maps. For two dimensional maps the third coordinate of the corners is not initialised: proved for transforms that keep the plane (C73_plane), false otherwise (C73_plane_refuted)."
  },
  {
   "property": "C74",
   "status": "proved",
   "theorems": [
    "C74_plane",
    "C74_centre",
    "C74_outside",
    "C74_border_refuted"
   ],
   "note": "C74_border_refuted: in cells at the border the neighbour outside of the array is read."
  },
  {
   "property": "C75",
   "status": "proved",
   "theorems": [
    "C75_get",
    "C75_outside",
    "C75_cell",
    "C75_cell_refuted"
   ],
   "note": "C75_cell_refuted: ElevationGrid::get(Position) passes the cell numbers as world coordinates; it is proved to be correct exactly for unit cells without offset."
  },
  {
   "property": "C76",
   "status": "proved",
   "theorems": [
    "C76_project",
    "C76_root_refuted"
   ],
   "note": "The root node has no transform of its own in the property; C76_project covers the code with any, C76_root_refuted shows that it is applied in addition."
  },
  {
   "property": "C77",
   "status": "proved",
   "theorems": [
    "C77_heights",
    "C77_refused",
    "C77_size_refuted",
    "C77_scale_refuted",
    "C77_stale_refuted"
   ],
   "note": "With the hypothesis that the shapes agree. C77_size_refuted, C77_scale_refuted, C77_stale_refuted: the checks use && and cells without patches keep old values."
  },
  {
   "property": "C78",
   "status": "proved",
   "theorems": [
    "C78_project",
    "C78_aligned",
    "C78_aligned_only",
    "C78_apart",
    "C78_scale_refuted",
    "C78_shift_refuted"
   ],
   "note": "C78_scale_refuted, C78_shift_refuted: the alignment test ignores the scale and compares cell counts as coordinates."
  },
  {
   "property": "C79",
   "status": "proved",
   "theorems": [
    "C79_min_max",
    "C79_negative_refuted"
   ],
   "note": "C79_negative_refuted: the maximum is wrong for floating point bands without positive value."
  },
  {
   "property": "C80",
   "status": "proved",
   "theorems": [
    "C80_cells",
    "C80_turned_refuted"
   ],
   "note": "For frames that are not turned; C80_turned_refuted otherwise."
  },
  {
   "property": "C81",
   "status": "proved",
   "theorems": [
    "C81_single",
    "C81_first",
    "C81_cache_refuted",
    "C81_tilted_refuted"
   ],
   "note": "C81_cache_refuted: after a lookup in one of several grids the others are never asked again; C81_tilted_refuted: the height is wrong for tilted grids."
  },
  {
   "property": "C82",
   "status": "proved",
   "theorems": [
    "C82_distance",
    "C82_vertical_refuted",
    "C82_find",
    "C82_nearest_refuted"
   ],
   "note": "C82_vertical_refuted: the distance of two vertical patches is always 0; C82_nearest_refuted: the first, not the nearest, patch is returned."
  },
  {
   "property": "C83",
   "status": "proved",
   "theorems": [
    "C83_get",
    "C83_access",
    "C83_raised_refuted"
   ],
   "note": "C83_raised_refuted: the height is returned in the frame of the grid."
  },
  {
   "property": "C84",
   "status": "proved",
   "theorems": [
    "C84_patch",
    "C84_newest",
    "C84_newest_refuted",
    "C84_moved_refuted"
   ],
   "note": "C84_newest_refuted, C84_moved_refuted: the remembered grid takes precedence, and its frame is not refreshed."
  },
  {
   "property": "C85",
   "status": "proved",
   "theorems": [
    "C85_position",
    "C85_cells",
    "C85_relative_refuted",
    "C85_select"
   ],
   "note": "C85_relative_refuted: a grid created relative to the map is not aligned with the active grid."
  },
  {
   "property": "C86",
   "status": "proved",
   "theorems": [
    "C86_pose",
    "C86_best",
    "C86_transform",
    "C86_weights_refuted"
   ],
   "note": "C86_weights_refuted: getTransform compares the weights with an int."
  },
  {
   "property": "C87",
   "status": "proved",
   "theorems": [
    "C87_project",
    "C87_no_loss",
    "C87_uncertain"
   ],
   "note": "Without the update model SLOPE and without negative information. C87_no_loss states the conservation of measurements through labels that do not influence the patches."
  },
  {
   "property": "C88",
   "status": "proved",
   "theorems": [
    "C88_forward",
    "C88_grid",
    "C88_reverse",
    "C88_height",
    "C88_tilted_refuted",
    "C88_reverse_height",
    "C88_reverse_refuted"
   ],
   "note": "C88_tilted_refuted: the merge of one grid into another moves all patches of a cell by the same height; C88_reverse_refuted: the reverse mode adds the height in the wrong direction."
  },
  {
   "property": "C89",
   "status": "proved",
   "theorems": [
    "C89_values",
    "C89_same",
    "C89_frames_refuted"
   ],
   "note": "C89_frames_refuted: between different frames the transform is applied in the wrong direction."
  },
  {
   "property": "C90",
   "status": "proved",
   "theorems": [
    "C90_cloud",
    "C90_tilted_refuted"
   ],
   "note": "C90_tilted_refuted for tilted frames. Heights are rational numbers: the float loop variable of the code may stop advancing for large heights."
  },
  {
   "property": "C91",
   "status": "proved",
   "theorems": [
    "C91_compose",
    "C91_inverse",
    "C91_point",
    "C91_monotone",
    "C91_relative",
    "C91_translation",
    "C91_quaternion",
    "C91_unturned",
    "C91_common_refuted",
    "C91_inverse_refuted"
   ],
   "note": "C91_common_refuted: the relative transform of two frames counts the uncertainty of their common ancestors although it cancels; C91_inverse_refuted: the derivative used for the inverse of an uncertain transform has wrong signs."
  },
  {
   "property": "C92",
   "status": "proved",
   "theorems": [
    "C92_composition_inv",
    "C92_pre_composition_inv",
    "C92_recover_left",
    "C92_recover_right",
    "C92_negative_refuted"
   ],
   "note": "C92_negative_refuted: for arbitrary arguments the result of removing a transform need not be a covariance."
  },
  {
   "property": "C93",
   "status": "proved",
   "theorems": [
    "C93_stats"
   ],
   "note": "Exact arithmetic; in floating point the subtraction of the squared mean may cancel."
  },
  {
   "property": "C94",
   "status": "proved",
   "theorems": [
    "C94_normalize",
    "C94_step",
    "C94_density_refuted",
    "C94_eval_refuted",
    "C94_removed_refuted"
   ],
   "note": "C94_removed_refuted: after removing a component the weights do not add up to one; C94_eval_refuted: the value of a mixture ignores the weights; C94_density_refuted: the Gaussian value is multiplied by the square root of the determinant instead of divided."
  },
  {
   "property": "C95",
   "status": "proved",
   "theorems": [
    "C95_terminates",
    "C95_start",
    "C95_result",
    "C95_empty_refuted"
   ],
   "note": "C95_empty_refuted: with duplicate samples a class stays empty and its centre is 0/0 (the run ends in the distinct outcome NaN)."
  },
  {
   "property": "C96",
   "status": "proved",
   "theorems": [
    "C96_trim",
    "C96_pairs",
    "C96_add_refuted"
   ],
   "note": "Refuted for adding after trimming: C96_add_refuted."
  },
  {
   "property": "C97",
   "status": "proved",
   "theorems": [
    "C97_translation",
    "C97_rotation_refuted"
   ],
   "note": "The optimality of the rotation is false of the code (icp.cpp:76-82 uses the difference of sigma and its transpose where the sum is needed): C97_rotation_refuted."
  },
  {
   "property": "C98",
   "status": "proved",
   "theorems": [
    "C98_sample",
    "C98_zero_refuted"
   ],
   "note": "Exact arithmetic. C98_zero_refuted for density zero."
  },
  {
   "property": "C99",
   "status": "proved",
   "theorems": [
    "C99_align",
    "C99_apply"
   ],
   "note": "Nearest neighbour search, sort and eigenvector solver are arguments; the pair filter accepts every pair."
  },
  {
   "property": "C100",
   "status": "proved",
   "theorems": [
    "C100_search",
    "C100_minimum_refuted",
    "C100_zero_refuted"
   ],
   "note": "C100_minimum_refuted and C100_zero_refuted show what the search does not do; the cause of the first is that SHIFT3 evaluates its last argument before shifting (icp.hpp:307,312)."
  },
  {
   "property": "C101",
   "status": "proved",
   "theorems": [
    "C101_fit",
    "C101_consensus",
    "C101_pick",
    "C101_success_refuted",
    "C101_failure_refuted"
   ],
   "note": "Random choices and the logarithmic estimate are arguments; C101_success_refuted, C101_failure_refuted."
  },
  {
   "property": "C102",
   "status": "proved",
   "theorems": [
    "C102_order",
    "C102_accepted",
    "C102_values",
    "C102_shift",
    "C102_deviation_refuted"
   ],
   "note": "Exact real arithmetic; the plane solver is an argument. C102_deviation_refuted: the formula for the variance contains the height itself."
  },
  {
   "property": "C103",
   "status": "proved",
   "theorems": [
    "C103_item",
    "C103_events",
    "C103_sync",
    "C103_large_refuted",
    "C103_stale_refuted"
   ],
   "note": "The YAML library and the classes are arguments. C103_large_refuted: properties above 10000 bytes are cut off; C103_stale_refuted: streams of a failed message are used by the next one."
  },
  {
   "property": "C104",
   "status": "proved",
   "theorems": [
    "C104_context",
    "C104_copied_refuted",
    "C104_listener_refuted"
   ],
   "note": "C104_copied_refuted: fails with allowMultithreading; C104_listener_refuted: undefined behaviour if the receiver has listeners."
  },
  {
   "property": "C105",
   "status": "proved",
   "theorems": [
    "C105_bands",
    "C105_defined",
    "C105_nodata_refuted",
    "C105_size_refuted"
   ],
   "note": "C105_nodata_refuted: a copy keeps a stale nodata value; C105_size_refuted: other sizes abort, cells outside are undefined behaviour."
  },
  {
   "property": "C106",
   "status": "proved",
   "theorems": [
    "C106_import",
    "C106_rotated",
    "C106_export",
    "C106_sheared_refuted",
    "C106_scale_refuted"
   ],
   "note": "GDAL is external: a raster file is its size, geotransform and bands. C106_sheared_refuted: the tolerance for turned axes allows an error of many cells; C106_scale_refuted: directions are ignored if the grid knows its scale."
  },
  {
   "property": "C107",
   "status": "proved",
   "theorems": [
    "C107_files",
    "C107_streams",
    "C107_nodata_refuted",
    "C107_clash_refuted",
    "C107_empty_refuted"
   ],
   "note": "Guarded by a non-empty grid with scale. C107_nodata_refuted: messages lose nodata values; C107_clash_refuted: file names of two grids can coincide; C107_empty_refuted: empty grids cannot be saved."
  },
  {
   "property": "C108",
   "status": "proved",
   "theorems": [
    "C108_frame",
    "C108_distance",
    "C108_to_frame",
    "C108_grid",
    "C108_large_refuted",
    "C108_width_refuted"
   ],
   "note": "C108_large_refuted: larger images are written past the end; C108_width_refuted: distance images of another size are mixed up or read past the end."
  },
  {
   "property": "C109",
   "status": "proved",
   "theorems": [
    "C109_valid",
    "C109_first_refuted",
    "C109_vertices",
    "C109_recorded",
    "C109_long_refuted",
    "C109_short_refuted",
    "C109_remission_refuted",
    "C109_empty_refuted"
   ],
   "note": "The float geometry (filters, positions, distances) are arguments. C109_long_refuted, C109_short_refuted, C109_remission_refuted, C109_empty_refuted: undefined behaviour or a failed assertion for other scans; C109_first_refuted: no face has the first vertex."
  },
  {
   "property": "C110",
   "status": "proved",
   "theorems": [
    "C110_faces",
    "C110_first_refuted",
    "C110_stale_refuted"
   ],
   "note": "Guarded by lines of equal length. C110_first_refuted: the first vertex is left out; C110_stale_refuted: shorter lines lead to faces between lines that are not neighbours."
  },
  {
   "property": "C111",
   "status": "proved",
   "theorems": [
    "C111_normals",
    "C111_order_refuted"
   ],
   "note": "C111_order_refuted: the result depends on the order of the faces."
  },
  {
   "property": "C112",
   "status": "proved",
   "theorems": [
    "C112_highest",
    "C112_steps",
    "C112_neighbours",
    "C112_symmetric",
    "C112_bound",
    "C112_overlooked_refuted",
    "C112_overlooked_end_refuted",
    "C112_direction_refuted",
    "C112_size_refuted",
    "C112_members_refuted",
    "C112_deviation_refuted"
   ],
   "note": "guarded as stated: members set, equal sizes, non-negative deviations; the cases outside are refuted"
  },
  {
   "property": "C113",
   "status": "proved",
   "theorems": [
    "C113_slope",
    "C113_required_refuted"
   ],
   "note": "the plane fit is an arbitrary function of the points; that patches with too few measurements take part is refuted"
  },
  {
   "property": "C114",
   "status": "proved",
   "theorems": [
    "C114_clone",
    "C114_transform",
    "C114_orphan",
    "C114_unattached",
    "C114_orphan_refuted",
    "C114_shared_refuted",
    "C114_id_refuted"
   ],
   "note": "guarded as stated: attached map, frame below the root, numbers left; the cases outside are refuted"
  },
  {
   "property": "C115",
   "status": "proved",
   "theorems": [
    "C115_walk",
    "C115_ends",
    "C115_row_refuted",
    "C115_corner_refuted",
    "C115_own_refuted"
   ],
   "note": "guarded as stated; the excluded positions of the light are refuted"
  },
  {
   "property": "C116",
   "status": "proved",
   "theorems": [
    "C116_range",
    "C116_part",
    "C116_point",
    "C116_above",
    "C116_full",
    "C116_dark",
    "C116_shade",
    "C116_all",
    "C116_seen",
    "C116_row_refuted",
    "C116_band_refuted"
   ],
   "note": "real numbers without rounding, finite heights; guarded as stated"
  },
  {
   "property": "C117",
   "status": "proved",
   "theorems": [
    "C117_load",
    "C117_exact",
    "C117_float",
    "C117_again",
    "C117_truncated",
    "C117_counts",
    "C117_others_refuted",
    "C117_color_refuted",
    "C117_nonempty_refuted",
    "C117_order_refuted",
    "C117_corners_refuted",
    "C117_copy_refuted"
   ],
   "note": "the text of the header and the parser of the ply library are not modelled (it is taken to call the callbacks in the order of the file and to report an early end); all NaN are one; little endian"
  },
  {
   "property": "C118",
   "status": "proved",
   "theorems": [
    "C118_points",
    "C118_project",
    "C118_aligned",
    "C118_missing_refuted",
    "C118_image_refuted",
    "C118_negative_refuted",
    "C118_colors_refuted"
   ],
   "note": "exact rational arithmetic; the transform between the frames is an argument; guarded as stated"
  },
  {
   "property": "C119",
   "status": "proved",
   "theorems": [
    "C119_simplify",
    "C119_aligned",
    "C119_off",
    "C119_twice_refuted",
    "C119_variances_refuted",
    "C119_normals_refuted"
   ],
   "note": "the functions of CGAL are arguments: removing keeps a sub-multiset, smoothing keeps the numbers; input and output differ"
  },
  {
   "property": "C120",
   "status": "proved",
   "theorems": [
    "C120_answers",
    "C120_state",
    "C120_touching",
    "C120_inside",
    "C120_two_sets_refuted",
    "C120_add_refuted",
    "C120_area_refuted",
    "C120_member_refuted",
    "C120_pose_refuted",
    "C120_first_refuted"
   ],
   "note": "Box2D is an argument: boxes, broad phase (visits exactly the overlapping boxes), distances below the largest float and point tests; guarded as stated"
  },
  {
   "property": "C121",
   "status": "proved",
   "theorems": [
    "C121_drawing",
    "C121_faithful",
    "C121_name",
    "C121_names_refuted"
   ],
   "note": "the drawing is a list of nodes and edges, not the text; labels of users, class names and transforms are left out; guarded as stated"
  },
  {
   "property": "C122",
   "status": "proved",
   "theorems": [
    "C122_read",
    "C122_all",
    "C122_again",
    "C122_empty_refuted",
    "C122_zero_refuted",
    "C122_blank_refuted",
    "C122_grey_refuted",
    "C122_long_refuted",
    "C122_names_refuted",
    "C122_forever_refuted"
   ],
   "note": "conversion of numbers is an argument: no white space, read back rounded; eofbit, failbit, ignore and peek as in the standard; guarded as stated"
  },
  {
   "property": "C123",
   "status": "proved",
   "theorems": [
    "C123_heights",
    "C123_bins",
    "C123_classifier",
    "C123_empty_refuted",
    "C123_unsorted_refuted",
    "C123_equal_refuted",
    "C123_plain_refuted"
   ],
   "note": "exact rational arithmetic; guarded as stated"
  },
  {
   "property": "C124",
   "status": "proved",
   "theorems": [
    "C124_cluster",
    "C124_keep",
    "C124_region",
    "C124_unset_refuted",
    "C124_few",
    "C124_none_refuted",
    "C124_far_refuted",
    "C124_angle_refuted",
    "C124_orientation_refuted"
   ],
   "note": "exact real arithmetic; rotations, yaw extraction and the Cholesky factor are arguments; guarded as stated"
  },
  {
   "property": "C125",
   "status": "proved",
   "theorems": [
    "C125_columns",
    "C125_sigma",
    "C125_uniform",
    "C125_unset_refuted",
    "C125_level_refuted"
   ],
   "note": "exact real arithmetic; the Cholesky factor and random numbers are arguments; guarded as stated"
  },
  {
   "property": "C126",
   "status": "proved",
   "theorems": [
    "C126_window",
    "C126_cloud",
    "C126_differs",
    "C126_sample",
    "C126_none_refuted",
    "C126_negative_refuted",
    "C126_first_refuted",
    "C126_again_refuted"
   ],
   "note": "exact rational arithmetic; the thresholds for norms and angles are arguments; the counter of scans does not overflow; guarded as stated"
  },
  {
   "property": "C127",
   "status": "proved",
   "theorems": [
    "C127_saved",
    "C127_removed",
    "C127_not_saved",
    "C127_dangling_refuted"
   ],
   "note": "on the model of the environment core; the transform found and the number of pairs are arguments; guarded as stated"
  },
  {
   "property": "C128",
   "status": "proved",
   "theorems": [
    "C128_map",
    "C128_determined",
    "C128_nan_refuted",
    "C128_smaller_refuted",
    "C128_stale_refuted",
    "C128_range_refuted",
    "C128_many_refuted"
   ],
   "note": "on rational numbers, infinities and not-a-number; the output band is not the band of probabilities; guarded as stated, with refutations for what is excluded"
  },
  {
   "property": "C129",
   "status": "proved",
   "theorems": [
    "C129_classes",
    "C129_order",
    "C129_few_refuted"
   ],
   "note": "on rational numbers; zero classes (drivability that is not a number) are not modelled; guarded as stated, with a refutation for few classes"
  },
  {
   "property": "C130",
   "status": "proved",
   "theorems": [
    "C130_traversability",
    "C130_meshing",
    "C130_names",
    "C130_missing",
    "C130_clearance_refuted",
    "C130_remission_refuted"
   ],
   "note": "for texts of numbers that are read back exactly, which is a hypothesis; operators that save no parameters are not modelled"
  },
  {
   "property": "C131",
   "status": "proved",
   "theorems": [
    "C131_mean",
    "C131_bounds",
    "C131_raised",
    "C131_sign_refuted",
    "C131_apart_refuted",
    "C131_exact_refuted"
   ],
   "note": "exact numbers"
  },
  {
   "property": "C132",
   "status": "proved",
   "theorems": [
    "C132_ratio",
    "C132_self",
    "C132_tolerance",
    "C132_height_refuted",
    "C132_apart_refuted",
    "C132_patches_refuted",
    "C132_index",
    "C132_sampling_refuted"
   ],
   "note": "exact numbers; positions less than 2^63 cells off the map"
  },
  {
   "property": "C133",
   "status": "proved",
   "theorems": [
    "C133_path",
    "C133_samples",
    "C133_outside_refuted",
    "C133_free_refuted"
   ],
   "note": "exact numbers; the sampling of a spline and the interpolation of the result are not modelled"
  },
  {
   "property": "C134",
   "status": "proved",
   "theorems": [
    "C134_rectangles",
    "C134_all",
    "C134_tilt_refuted",
    "C134_larger_refuted"
   ],
   "note": "Coordinates are rationals. The guard on the tilt is stated in the theorem (clear_tilt); without it the claim is refuted by C134_tilt_refuted. The outlines are those of C33."
  },
  {
   "property": "C135",
   "status": "proved",
   "theorems": [
    "C135_read",
    "C135_matrix",
    "C135_frame",
    "C135_missing_refuted"
   ],
   "note": "That a number is read back as it was written (boost::lexical_cast) is a hypothesis."
  },
  {
   "property": "C136",
   "status": "proved",
   "theorems": [
    "C136_header",
    "C136_old",
    "C136_mls",
    "C136_no_stream",
    "C136_create",
    "C136_create_frame_refuted"
   ],
   "note": "That numbers are read back as written is a hypothesis; the content of the stream is that of C48, whose theorem is used."
  },
  {
   "property": "C137",
   "status": "proved",
   "theorems": [
    "C137_cells",
    "C137_range",
    "C137_plane",
    "C137_update",
    "C137_border_refuted",
    "C137_hull_refuted"
   ],
   "note": "Exact arithmetic. CGAL's point location is an argument with the contract stated in the record delaunay; try_all_delaunay shows that the contract can be met."
  },
  {
   "property": "C138",
   "status": "proved",
   "theorems": [
    "C138_statistic",
    "C138_worst",
    "C138_probability",
    "C138_small_refuted",
    "C138_oblong_refuted"
   ],
   "note": "Exact arithmetic; cosine and sine are arguments whose squares add up to one. Distances are squared. Without a border."
  },
  {
   "property": "C139",
   "status": "proved",
   "theorems": [
    "C139_cells",
    "C139_copy_refuted",
    "C139_remove_refuted"
   ],
   "note": "Refinement to independent grids for all sequences the specification allows; the memory allocator is any function that returns unused addresses."
  },
  {
   "property": "C140",
   "status": "proved",
   "theorems": [
    "C140_beam",
    "C140_filled",
    "C140_outside",
    "C140_wedge",
    "C140_below_refuted",
    "C140_again_refuted"
   ],
   "note": "C140_filled and C140_outside are about grids with patches; C140_again_refuted shows what happens otherwise. The length of a plane vector is a parameter; numbers are exact."
  },
  {
   "property": "C141",
   "status": "proved",
   "theorems": [
    "C141_refused",
    "C141_content",
    "C141_outside",
    "C141_taken",
    "C141_colour_refuted"
   ],
   "note": "C141_content is about records within the grid, C141_outside about a record that is not. The layout of a record in memory and the conversions of numbers are parameters."
  },
  {
   "property": "C142",
   "status": "proved",
   "theorems": [
    "C142_open",
    "C142_filtered",
    "C142_pass",
    "C142_all",
    "C142_apart",
    "C142_remove",
    "C142_deleted",
    "C142_shared_refuted"
   ],
   "note": "Handlers that cause further events while they handle one are not modelled."
  },
  {
   "property": "C143",
   "status": "proved",
   "theorems": [
    "C143_once",
    "C143_pending",
    "C143_order",
    "C143_exclusive",
    "C143_progress",
    "C143_ends",
    "C143_deadlock",
    "C143_deadlock_refuted",
    "C143_again_refuted"
   ],
   "note": "Access to the queue and its mutex only: items that events refer to without copy (multithreading not allowed) can still be changed by other threads, which is not modelled. Sequential consistency is assumed within the mutex."
  },
  {
   "property": "C144",
   "status": "proved",
   "theorems": [
    "C144_known",
    "C144_taken"
   ],
   "note": "C144_taken is stated for events that announce an item. An updating event about an unknown item does the same and is then undefined if the receiver has listeners."
  },
  {
   "property": "C145",
   "status": "proved",
   "theorems": [
    "C145_all",
    "C145_twice",
    "C145_mean",
    "C145_same",
    "C145_deviation_refuted"
   ],
   "note": "Numbers are real; the solver and the scaling of the plane sums belong to another library and are described by a hypothesis and by the model."
  },
  {
   "property": "C146",
   "status": "proved",
   "theorems": [
    "C146_scan",
    "C146_cloud",
    "C146_failed",
    "C146_leak_refuted",
    "C146_free_refuted"
   ],
   "note": "That the calls return if ids are left is not proved here; the text formats are those of C54 and of the text files of point clouds."
  },
  {
   "property": "C147",
   "status": "proved",
   "theorems": [
    "C147_again",
    "C147_old",
    "C147_counts",
    "C147_damaged",
    "C147_text_refuted"
   ],
   "note": "That the ply parser reports every failure through the error callback is an assumption about the library; other data of vertices is lost (C117)."
  }
 ]
}
