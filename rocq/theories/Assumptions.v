(** The assumptions of every theorem that MANIFEST.json names; the build prints them. No definitions. *)
From Verif Require EnvProps EnvProps2 EnvArity EnvProps3 EnvEffects QueueProps SyncProps Bresenham GridProps RectProps Transform Ids Metadata PersistProps ListGridProps MlsProps MlsUpdate MlsPatch Trav TravProb Growing Passages Lut Grassfire Grassfire2 Voxel Scan Cloud Elevation Access MlsProj Uncertain Gauss Icp IcpSearch MlsSum Binary Context RasterProps Frames Mesh Slope Clone Illum Light Ply Distance Polygons Drawing CloudText Stability Cluster ScanWindow ScanPlace SimpleTrav OperatorParams MlsMatch RectPair MapHeader Interp RectStats TravCache FreeSpace OldMaps EventFilters QueueThreads SharedItems Weights Imports CloudFiles.

(** C01 *)
Print Assumptions EnvProps.C01_lookup_exact.
(** C02 *)
Print Assumptions EnvProps.C02_one_owner.
Print Assumptions EnvProps.C02_move.
(** C03 *)
Print Assumptions EnvProps.C03_fresh_id.
Print Assumptions EnvProps.C03_ids_absolute.
(** C04 *)
Print Assumptions EnvProps.C04_id_stable.
Print Assumptions EnvProps.C04_set_id_rejected.
(** C05 *)
Print Assumptions EnvProps.C05_rejected_attach.
Print Assumptions EnvProps.C05_move_refuted.
(** C06 *)
Print Assumptions EnvProps2.C06_detach_flat.
(** C07 *)
Print Assumptions EnvProps2.C07_detach_exact.
(** C08 *)
Print Assumptions EnvProps2.C08_single_parent.
Print Assumptions EnvProps2.C08_add_child.
Print Assumptions EnvProps2.C08_set_frame.
(** C09 *)
Print Assumptions EnvProps2.C09_links_inside.
Print Assumptions EnvProps2.C09_unchecked_refuted.
(** C10 *)
Print Assumptions EnvProps2.C10_tree.
Print Assumptions EnvProps2.frame_cycle_refuted.
(** C11 *)
Print Assumptions EnvProps2.C11_add.
Print Assumptions EnvProps2.C11_remove.
Print Assumptions EnvProps2.C11_add_again.
Print Assumptions EnvProps2.C11_duplicate_refuted.
(** C12 *)
Print Assumptions EnvArity.C12_arity.
Print Assumptions EnvArity.C12_full_throws.
Print Assumptions EnvArity.C12_environment_interface_refuted.
(** C13 *)
Print Assumptions EnvProps2.C13_still_generated.
Print Assumptions EnvProps2.C13_refuted.
(** C14 *)
Print Assumptions EnvProps2.C14_generator.
Print Assumptions EnvProps2.C14_refuted.
(** C15 *)
Print Assumptions EnvProps3.C15_mirror.
Print Assumptions EnvProps3.C15_mirror_later.
Print Assumptions EnvProps3.C15_destroy.
(** C16 *)
Print Assumptions EnvProps3.C16_registration.
Print Assumptions EnvProps3.C16_registration_exact.
Print Assumptions EnvProps3.C16_layers_refuted.
Print Assumptions EnvProps3.C16_orphan_refuted.
(** C17 *)
Print Assumptions EnvProps3.C17_unregistration.
Print Assumptions EnvProps3.C17_items_removed.
Print Assumptions EnvProps3.C17_refuted.
Print Assumptions EnvProps3.C17_no_further_events.
(** C18 *)
Print Assumptions EnvProps3.C18_announced.
(** C19 *)
Print Assumptions EnvProps3.C19_delivery.
Print Assumptions EnvProps3.C19_silent.
Print Assumptions EnvProps3.C19_destroy.
(** C20 *)
Print Assumptions QueueProps.C20_unique.
Print Assumptions QueueProps.C20_no_add_and_remove.
Print Assumptions QueueProps.C20_no_update_before_remove.
Print Assumptions QueueProps.C20_sublist.
(** C21 *)
Print Assumptions SyncProps.C21_sync.
Print Assumptions SyncProps.C21_rounds.
Print Assumptions SyncProps.C21_initial.
Print Assumptions SyncProps.C21_reuse_refuted.
Print Assumptions SyncProps.C21_layer_refuted.
(** C22 *)
Print Assumptions QueueProps.C22_apply_any.
Print Assumptions QueueProps.C22_null_update_refuted.
Print Assumptions QueueProps.C22_self_link_refuted.
Print Assumptions QueueProps.C22_cycle_refuted.
(** C23 *)
Print Assumptions QueueProps.C23_dispatch.
Print Assumptions QueueProps.C23_distinct.
Print Assumptions QueueProps.C23_emitted.
Print Assumptions QueueProps.C23_emitted_destroy.
(** C24 *)
Print Assumptions Transform.C24_placed.
Print Assumptions Transform.C24_relative.
Print Assumptions Transform.C24_self.
Print Assumptions Transform.C24_parent.
Print Assumptions Transform.C24_compose.
Print Assumptions Transform.C24_inverse.
Print Assumptions Transform.C24_map_round_trip.
(** C25 *)
Print Assumptions PersistProps.C25_lossless.
Print Assumptions PersistProps.C25_clash_refuted.
Print Assumptions PersistProps.C25_prefix_refuted.
(** C26 *)
Print Assumptions Ids.C26_collision.
Print Assumptions Ids.C26_distinct.
Print Assumptions Ids.C26_refuted.
(** C27 *)
Print Assumptions Ids.C27_registered.
Print Assumptions Ids.C27_namespace.
Print Assumptions Ids.C27_plain.
Print Assumptions Ids.C27_refuted.
(** C28 *)
Print Assumptions PersistProps.C28_counter.
Print Assumptions PersistProps.C28_next.
Print Assumptions PersistProps.C28_limit_refuted.
(** C29 *)
Print Assumptions EnvProps2.C29_destroy.
(** C30 *)
Print Assumptions EnvProps2.C30_safe.
Print Assumptions EnvProps2.C30_alive.
Print Assumptions EnvProps2.C30_held_survives.
Print Assumptions EnvProps2.C30_move_refuted.
(** C31 *)
Print Assumptions GridProps.C31_inside.
Print Assumptions GridProps.C31_outside.
Print Assumptions GridProps.C31_negative_refuted.
Print Assumptions GridProps.C31_round_trip.
Print Assumptions GridProps.C31_contains.
Print Assumptions GridProps.C31_sub_cells.
(** C32 *)
Print Assumptions GridProps.C32_extents.
Print Assumptions GridProps.C32_refuted.
(** C33 *)
Print Assumptions Bresenham.C33_line.
Print Assumptions Bresenham.C33_positions.
Print Assumptions Bresenham.C33_overflow_refuted.
(** C34 *)
Print Assumptions RectProps.C34_rectangle.
Print Assumptions RectProps.C34_corners.
Print Assumptions RectProps.C34_missed_row_refuted.
(** C35 *)
Print Assumptions Metadata.C35_refines.
Print Assumptions Metadata.C35_no_leak.
Print Assumptions Metadata.C35_wrong_type_refuted.
(** C36 *)
Print Assumptions Trav.C36_register.
Print Assumptions Trav.C36_refused.
Print Assumptions Trav.C36_set.
Print Assumptions Trav.C36_unknown.
Print Assumptions Trav.C36_make.
Print Assumptions Trav.C36_capacity_refuted.
(** C37 *)
Print Assumptions Trav.C37_statistics.
Print Assumptions Trav.C37_class_255_refuted.
(** C38 *)
Print Assumptions TravProb.C38_floor.
Print Assumptions TravProb.C38_exact.
Print Assumptions TravProb.C38_values.
Print Assumptions TravProb.C38_within.
Print Assumptions TravProb.C38_range_refuted.
(** C39 *)
Print Assumptions Grassfire2.C39_fire.
Print Assumptions Grassfire2.C39_exact.
Print Assumptions Grassfire2.C39_start.
Print Assumptions Grassfire2.C39_order_refuted.
Print Assumptions Grassfire2.C39_obstacle_start_refuted.
Print Assumptions Grassfire2.C39_closest_refuted.
(** C40 *)
Print Assumptions Grassfire.C40_search.
Print Assumptions Grassfire.C40_negative_refuted.
(** C41 *)
Print Assumptions Growing.C41_dilation.
Print Assumptions Growing.C41_probability_refuted.
(** C42 *)
Print Assumptions Growing.C42_objects.
Print Assumptions Growing.C42_terrains.
Print Assumptions Growing.C42_max_value_refuted.
Print Assumptions Growing.C42_unregistered_refuted.
(** C43 *)
Print Assumptions Trav.C43_mean.
Print Assumptions Trav.C43_refuted.
(** C44 *)
Print Assumptions Passages.C44_safe.
(** C45 *)
Print Assumptions Lut.C45_radial.
Print Assumptions Lut.C45_radial_refuted.
Print Assumptions Lut.C45_box.
Print Assumptions Lut.C45_box_refuses.
Print Assumptions Lut.C45_box_refuted.
(** C46 *)
Print Assumptions ListGridProps.C46_iterate.
Print Assumptions ListGridProps.C46_lists.
Print Assumptions ListGridProps.C46_new_handle.
Print Assumptions ListGridProps.C46_erase.
Print Assumptions ListGridProps.C46_copy.
Print Assumptions ListGridProps.C46_move_refuted.
(** C47 *)
Print Assumptions MlsProps.C47_total.
Print Assumptions MlsProps.C47_count.
Print Assumptions MlsProps.C47_extents.
Print Assumptions MlsProps.C47_index_covers.
Print Assumptions MlsProps.C47_index.
Print Assumptions MlsProps.C47_reindex.
Print Assumptions MlsProps.C47_move_refuted.
Print Assumptions MlsProps.C47_move_index_refuted.
Print Assumptions MlsProps.C47_erase_refuted.
Print Assumptions MlsProps.C47_assign_refuted.
(** C48 *)
Print Assumptions MlsProps.C48_roundtrip.
Print Assumptions MlsProps.C48_patch.
(** C49 *)
Print Assumptions MlsPatch.C49_hull.
Print Assumptions MlsPatch.C49_cover.
Print Assumptions MlsPatch.C49_count.
Print Assumptions MlsPatch.C49_variance.
Print Assumptions MlsPatch.C49_symmetric.
Print Assumptions MlsPatch.C49_sum.
Print Assumptions MlsPatch.C49_sum_mean.
Print Assumptions MlsPatch.C49_sum_symmetric.
Print Assumptions MlsPatch.C49_index.
Print Assumptions MlsPatch.C49_sum_symmetric_refuted.
Print Assumptions MlsPatch.C49_count_refuted.
Print Assumptions MlsPatch.C49_refused_refuted.
(** C50 *)
Print Assumptions MlsPatch.C50_block.
Print Assumptions MlsPatch.C50_two_refuted.
Print Assumptions MlsPatch.C50_unmatched_refuted.
Print Assumptions MlsUpdate.C50_labels_are_ghosts.
Print Assumptions MlsUpdate.C50_no_loss.
Print Assumptions MlsUpdate.C50_unmatched.
Print Assumptions MlsUpdate.C50_contained.
Print Assumptions MlsUpdate.C50_single.
Print Assumptions MlsUpdate.C50_where.
Print Assumptions MlsUpdate.C50_one_match.
(** C51 *)
Print Assumptions Voxel.C51_terminates.
Print Assumptions Voxel.C51_forward.
Print Assumptions Voxel.C51_x_axis_refuted.
(** C52 *)
Print Assumptions EnvProps2.C52_prefix.
Print Assumptions EnvProps2.C52_empty_refuted.
(** C53 *)
Print Assumptions Ids.C53_parts.
Print Assumptions Ids.C53_plain.
(** C54 *)
Print Assumptions Scan.C54_read_write.
Print Assumptions Scan.C54_exact.
Print Assumptions Scan.C54_range_refuted.
Print Assumptions Scan.C54_remission_refuted.
Print Assumptions Scan.C54_lost_refuted.
Print Assumptions Scan.C54_trailing_space_refuted.
(** C55 *)
Print Assumptions EnvProps2.C55_lookups_agree.
(** C56 *)
Print Assumptions Trav.C56_round_trip.
(** C57 *)
Print Assumptions Trav.C57_worst_class.
(** C58 *)
Print Assumptions Passages.C58_closes.
Print Assumptions Passages.C58_class_255_refuted.
(** C59 *)
Print Assumptions Lut.C59_box_distance.
Print Assumptions Lut.C59_edge_refuted.
Print Assumptions Lut.C59_dist.
Print Assumptions Lut.C59_recompute.
Print Assumptions Lut.C59_tiny_refuted.
(** C60 *)
Print Assumptions Grassfire2.C60_classes.
Print Assumptions Grassfire2.C60_small_output_refuted.
(** C61 *)
Print Assumptions Grassfire2.C61_safe.
(** C62 *)
Print Assumptions Voxel.C62_cells_on_ray.
Print Assumptions Voxel.C62_direction_refuted.
Print Assumptions Voxel.C62_scale_refuted.
(** C63 *)
Print Assumptions EnvEffects.C63_attach_named.
(** C64 *)
Print Assumptions EnvEffects.C64_remove_child.
Print Assumptions EnvEffects.C64_detach_frame.
(** C65 *)
Print Assumptions EnvEffects.C65_add_input.
Print Assumptions EnvEffects.C65_add_output.
Print Assumptions EnvEffects.C65_remove.
Print Assumptions EnvEffects.C65_set_input.
Print Assumptions EnvEffects.C65_set_output.
(** C66 *)
Print Assumptions EnvEffects.C66_attach_map.
(** C67 *)
Print Assumptions EnvEffects.C67_set_content.
(** C68 *)
Print Assumptions EnvEffects.C68_smart_pointers.
(** C69 *)
Print Assumptions EnvEffects.C69_new_environment.
(** C70 *)
Print Assumptions Cloud.C70_cut.
Print Assumptions Cloud.C70_aligned.
Print Assumptions Cloud.C70_no_variance_refuted.
Print Assumptions Cloud.C70_boxes.
(** C71 *)
Print Assumptions Cloud.C71_merge.
Print Assumptions Cloud.C71_aligned.
Print Assumptions Cloud.C71_mixed.
Print Assumptions Cloud.C71_variances_refuted.
(** C72 *)
Print Assumptions Cloud.C72_extents.
(** C73 *)
Print Assumptions Cloud.C73_transformed.
Print Assumptions Cloud.C73_plane.
Print Assumptions Cloud.C73_plane_refuted.
(** C74 *)
Print Assumptions Elevation.C74_plane.
Print Assumptions Elevation.C74_centre.
Print Assumptions Elevation.C74_outside.
Print Assumptions Elevation.C74_border_refuted.
(** C75 *)
Print Assumptions Elevation.C75_get.
Print Assumptions Elevation.C75_outside.
Print Assumptions Elevation.C75_cell.
Print Assumptions Elevation.C75_cell_refuted.
(** C76 *)
Print Assumptions Elevation.C76_project.
Print Assumptions Elevation.C76_root_refuted.
(** C77 *)
Print Assumptions Elevation.C77_heights.
Print Assumptions Elevation.C77_refused.
Print Assumptions Elevation.C77_size_refuted.
Print Assumptions Elevation.C77_scale_refuted.
Print Assumptions Elevation.C77_stale_refuted.
(** C78 *)
Print Assumptions Elevation.C78_project.
Print Assumptions Elevation.C78_aligned.
Print Assumptions Elevation.C78_aligned_only.
Print Assumptions Elevation.C78_apart.
Print Assumptions Elevation.C78_scale_refuted.
Print Assumptions Elevation.C78_shift_refuted.
(** C79 *)
Print Assumptions Elevation.C79_min_max.
Print Assumptions Elevation.C79_negative_refuted.
(** C80 *)
Print Assumptions Elevation.C80_cells.
Print Assumptions Elevation.C80_turned_refuted.
(** C81 *)
Print Assumptions Access.C81_single.
Print Assumptions Access.C81_first.
Print Assumptions Access.C81_cache_refuted.
Print Assumptions Access.C81_tilted_refuted.
(** C82 *)
Print Assumptions Access.C82_distance.
Print Assumptions Access.C82_vertical_refuted.
Print Assumptions Access.C82_find.
Print Assumptions Access.C82_nearest_refuted.
(** C83 *)
Print Assumptions Access.C83_get.
Print Assumptions Access.C83_access.
Print Assumptions Access.C83_raised_refuted.
(** C84 *)
Print Assumptions Access.C84_patch.
Print Assumptions Access.C84_newest.
Print Assumptions Access.C84_newest_refuted.
Print Assumptions Access.C84_moved_refuted.
(** C85 *)
Print Assumptions Access.C85_position.
Print Assumptions Access.C85_cells.
Print Assumptions Access.C85_relative_refuted.
Print Assumptions Access.C85_select.
(** C86 *)
Print Assumptions Access.C86_pose.
Print Assumptions Access.C86_best.
Print Assumptions Access.C86_transform.
Print Assumptions Access.C86_weights_refuted.
(** C87 *)
Print Assumptions MlsProj.C87_project.
Print Assumptions MlsProj.C87_no_loss.
Print Assumptions MlsProj.C87_uncertain.
(** C88 *)
Print Assumptions MlsProj.C88_forward.
Print Assumptions MlsProj.C88_grid.
Print Assumptions MlsProj.C88_reverse.
Print Assumptions MlsProj.C88_height.
Print Assumptions MlsProj.C88_tilted_refuted.
Print Assumptions MlsProj.C88_reverse_height.
Print Assumptions MlsProj.C88_reverse_refuted.
(** C89 *)
Print Assumptions MlsProj.C89_values.
Print Assumptions MlsProj.C89_same.
Print Assumptions MlsProj.C89_frames_refuted.
(** C90 *)
Print Assumptions MlsProj.C90_cloud.
Print Assumptions MlsProj.C90_tilted_refuted.
(** C91 *)
Print Assumptions Uncertain.C91_compose.
Print Assumptions Uncertain.C91_inverse.
Print Assumptions Uncertain.C91_point.
Print Assumptions Uncertain.C91_monotone.
Print Assumptions Uncertain.C91_relative.
Print Assumptions Uncertain.C91_translation.
Print Assumptions Uncertain.C91_quaternion.
Print Assumptions Uncertain.C91_unturned.
Print Assumptions Uncertain.C91_common_refuted.
Print Assumptions Uncertain.C91_inverse_refuted.
(** C92 *)
Print Assumptions Uncertain.C92_composition_inv.
Print Assumptions Uncertain.C92_pre_composition_inv.
Print Assumptions Uncertain.C92_recover_left.
Print Assumptions Uncertain.C92_recover_right.
Print Assumptions Uncertain.C92_negative_refuted.
(** C93 *)
Print Assumptions Gauss.C93_stats.
(** C94 *)
Print Assumptions Gauss.C94_normalize.
Print Assumptions Gauss.C94_step.
Print Assumptions Gauss.C94_density_refuted.
Print Assumptions Gauss.C94_eval_refuted.
Print Assumptions Gauss.C94_removed_refuted.
(** C95 *)
Print Assumptions Gauss.C95_terminates.
Print Assumptions Gauss.C95_start.
Print Assumptions Gauss.C95_result.
Print Assumptions Gauss.C95_empty_refuted.
(** C96 *)
Print Assumptions Icp.C96_trim.
Print Assumptions Icp.C96_pairs.
Print Assumptions Icp.C96_add_refuted.
(** C97 *)
Print Assumptions Icp.C97_translation.
Print Assumptions Icp.C97_rotation_refuted.
(** C98 *)
Print Assumptions IcpSearch.C98_sample.
Print Assumptions IcpSearch.C98_zero_refuted.
(** C99 *)
Print Assumptions Icp.C99_align.
Print Assumptions Icp.C99_apply.
(** C100 *)
Print Assumptions IcpSearch.C100_search.
Print Assumptions IcpSearch.C100_minimum_refuted.
Print Assumptions IcpSearch.C100_zero_refuted.
(** C101 *)
Print Assumptions Icp.C101_fit.
Print Assumptions IcpSearch.C101_consensus.
Print Assumptions IcpSearch.C101_pick.
Print Assumptions IcpSearch.C101_success_refuted.
Print Assumptions IcpSearch.C101_failure_refuted.
(** C102 *)
Print Assumptions MlsSum.C102_order.
Print Assumptions MlsSum.C102_accepted.
Print Assumptions MlsSum.C102_values.
Print Assumptions MlsSum.C102_shift.
Print Assumptions MlsSum.C102_deviation_refuted.
(** C103 *)
Print Assumptions Binary.C103_item.
Print Assumptions Binary.C103_events.
Print Assumptions Binary.C103_sync.
Print Assumptions Binary.C103_large_refuted.
Print Assumptions Binary.C103_stale_refuted.
(** C104 *)
Print Assumptions Context.C104_context.
Print Assumptions Context.C104_copied_refuted.
Print Assumptions Context.C104_listener_refuted.
(** C105 *)
Print Assumptions RasterProps.C105_bands.
Print Assumptions RasterProps.C105_defined.
Print Assumptions RasterProps.C105_nodata_refuted.
Print Assumptions RasterProps.C105_size_refuted.
(** C106 *)
Print Assumptions RasterProps.C106_import.
Print Assumptions RasterProps.C106_rotated.
Print Assumptions RasterProps.C106_export.
Print Assumptions RasterProps.C106_sheared_refuted.
Print Assumptions RasterProps.C106_scale_refuted.
(** C107 *)
Print Assumptions RasterProps.C107_files.
Print Assumptions RasterProps.C107_streams.
Print Assumptions RasterProps.C107_nodata_refuted.
Print Assumptions RasterProps.C107_clash_refuted.
Print Assumptions RasterProps.C107_empty_refuted.
(** C108 *)
Print Assumptions Frames.C108_frame.
Print Assumptions Frames.C108_distance.
Print Assumptions Frames.C108_to_frame.
Print Assumptions Frames.C108_grid.
Print Assumptions Frames.C108_large_refuted.
Print Assumptions Frames.C108_width_refuted.
(** C109 *)
Print Assumptions Mesh.C109_valid.
Print Assumptions Mesh.C109_first_refuted.
Print Assumptions Mesh.C109_vertices.
Print Assumptions Mesh.C109_recorded.
Print Assumptions Mesh.C109_long_refuted.
Print Assumptions Mesh.C109_short_refuted.
Print Assumptions Mesh.C109_remission_refuted.
Print Assumptions Mesh.C109_empty_refuted.
(** C110 *)
Print Assumptions Mesh.C110_faces.
Print Assumptions Mesh.C110_first_refuted.
Print Assumptions Mesh.C110_stale_refuted.
(** C111 *)
Print Assumptions Mesh.C111_normals.
Print Assumptions Mesh.C111_order_refuted.
(** C112 *)
Print Assumptions Slope.C112_highest.
Print Assumptions Slope.C112_steps.
Print Assumptions Slope.C112_neighbours.
Print Assumptions Slope.C112_symmetric.
Print Assumptions Slope.C112_bound.
Print Assumptions Slope.C112_overlooked_refuted.
Print Assumptions Slope.C112_overlooked_end_refuted.
Print Assumptions Slope.C112_direction_refuted.
Print Assumptions Slope.C112_size_refuted.
Print Assumptions Slope.C112_members_refuted.
Print Assumptions Slope.C112_deviation_refuted.
(** C113 *)
Print Assumptions Slope.C113_slope.
Print Assumptions Slope.C113_required_refuted.
(** C114 *)
Print Assumptions Clone.C114_clone.
Print Assumptions Clone.C114_transform.
Print Assumptions Clone.C114_orphan.
Print Assumptions Clone.C114_unattached.
Print Assumptions Clone.C114_orphan_refuted.
Print Assumptions Clone.C114_shared_refuted.
Print Assumptions Clone.C114_id_refuted.
(** C115 *)
Print Assumptions Illum.C115_walk.
Print Assumptions Illum.C115_ends.
Print Assumptions Illum.C115_row_refuted.
Print Assumptions Illum.C115_corner_refuted.
Print Assumptions Illum.C115_own_refuted.
(** C116 *)
Print Assumptions Light.C116_range.
Print Assumptions Light.C116_part.
Print Assumptions Light.C116_point.
Print Assumptions Light.C116_above.
Print Assumptions Light.C116_full.
Print Assumptions Light.C116_dark.
Print Assumptions Light.C116_shade.
Print Assumptions Light.C116_all.
Print Assumptions Light.C116_seen.
Print Assumptions Light.C116_row_refuted.
Print Assumptions Light.C116_band_refuted.
(** C117 *)
Print Assumptions Ply.C117_load.
Print Assumptions Ply.C117_exact.
Print Assumptions Ply.C117_float.
Print Assumptions Ply.C117_again.
Print Assumptions Ply.C117_truncated.
Print Assumptions Ply.C117_counts.
Print Assumptions Ply.C117_others_refuted.
Print Assumptions Ply.C117_color_refuted.
Print Assumptions Ply.C117_nonempty_refuted.
Print Assumptions Ply.C117_order_refuted.
Print Assumptions Ply.C117_corners_refuted.
Print Assumptions Ply.C117_copy_refuted.
(** C118 *)
Print Assumptions Distance.C118_points.
Print Assumptions Distance.C118_project.
Print Assumptions Distance.C118_aligned.
Print Assumptions Distance.C118_missing_refuted.
Print Assumptions Distance.C118_image_refuted.
Print Assumptions Distance.C118_negative_refuted.
Print Assumptions Distance.C118_colors_refuted.
(** C119 *)
Print Assumptions Distance.C119_simplify.
Print Assumptions Distance.C119_aligned.
Print Assumptions Distance.C119_off.
Print Assumptions Distance.C119_twice_refuted.
Print Assumptions Distance.C119_variances_refuted.
Print Assumptions Distance.C119_normals_refuted.
(** C120 *)
Print Assumptions Polygons.C120_answers.
Print Assumptions Polygons.C120_state.
Print Assumptions Polygons.C120_touching.
Print Assumptions Polygons.C120_inside.
Print Assumptions Polygons.C120_two_sets_refuted.
Print Assumptions Polygons.C120_add_refuted.
Print Assumptions Polygons.C120_area_refuted.
Print Assumptions Polygons.C120_member_refuted.
Print Assumptions Polygons.C120_pose_refuted.
Print Assumptions Polygons.C120_first_refuted.
(** C121 *)
Print Assumptions Drawing.C121_drawing.
Print Assumptions Drawing.C121_faithful.
Print Assumptions Drawing.C121_name.
Print Assumptions Drawing.C121_names_refuted.
(** C122 *)
Print Assumptions CloudText.C122_read.
Print Assumptions CloudText.C122_all.
Print Assumptions CloudText.C122_again.
Print Assumptions CloudText.C122_empty_refuted.
Print Assumptions CloudText.C122_zero_refuted.
Print Assumptions CloudText.C122_blank_refuted.
Print Assumptions CloudText.C122_grey_refuted.
Print Assumptions CloudText.C122_long_refuted.
Print Assumptions CloudText.C122_names_refuted.
Print Assumptions CloudText.C122_forever_refuted.
(** C123 *)
Print Assumptions Stability.C123_heights.
Print Assumptions Stability.C123_bins.
Print Assumptions Stability.C123_classifier.
Print Assumptions Stability.C123_empty_refuted.
Print Assumptions Stability.C123_unsorted_refuted.
Print Assumptions Stability.C123_equal_refuted.
Print Assumptions Stability.C123_plain_refuted.
(** C124 *)
Print Assumptions Cluster.C124_cluster.
Print Assumptions Cluster.C124_keep.
Print Assumptions Cluster.C124_region.
Print Assumptions Cluster.C124_unset_refuted.
Print Assumptions Cluster.C124_few.
Print Assumptions Cluster.C124_none_refuted.
Print Assumptions Cluster.C124_far_refuted.
Print Assumptions Cluster.C124_angle_refuted.
Print Assumptions Cluster.C124_orientation_refuted.
(** C125 *)
Print Assumptions Cluster.C125_columns.
Print Assumptions Cluster.C125_sigma.
Print Assumptions Cluster.C125_uniform.
Print Assumptions Cluster.C125_unset_refuted.
Print Assumptions Cluster.C125_level_refuted.
(** C126 *)
Print Assumptions ScanWindow.C126_window.
Print Assumptions ScanWindow.C126_cloud.
Print Assumptions ScanWindow.C126_differs.
Print Assumptions ScanWindow.C126_sample.
Print Assumptions ScanWindow.C126_none_refuted.
Print Assumptions ScanWindow.C126_negative_refuted.
Print Assumptions ScanWindow.C126_first_refuted.
Print Assumptions ScanWindow.C126_again_refuted.
(** C127 *)
Print Assumptions ScanPlace.C127_saved.
Print Assumptions ScanPlace.C127_removed.
Print Assumptions ScanPlace.C127_not_saved.
Print Assumptions ScanPlace.C127_dangling_refuted.
(** C128 *)
Print Assumptions SimpleTrav.C128_map.
Print Assumptions SimpleTrav.C128_determined.
Print Assumptions SimpleTrav.C128_nan_refuted.
Print Assumptions SimpleTrav.C128_smaller_refuted.
Print Assumptions SimpleTrav.C128_stale_refuted.
Print Assumptions SimpleTrav.C128_range_refuted.
Print Assumptions SimpleTrav.C128_many_refuted.
(** C129 *)
Print Assumptions SimpleTrav.C129_classes.
Print Assumptions SimpleTrav.C129_order.
Print Assumptions SimpleTrav.C129_few_refuted.
(** C130 *)
Print Assumptions OperatorParams.C130_traversability.
Print Assumptions OperatorParams.C130_meshing.
Print Assumptions OperatorParams.C130_names.
Print Assumptions OperatorParams.C130_missing.
Print Assumptions OperatorParams.C130_clearance_refuted.
Print Assumptions OperatorParams.C130_remission_refuted.
(** C131 *)
Print Assumptions MlsMatch.C131_mean.
Print Assumptions MlsMatch.C131_bounds.
Print Assumptions MlsMatch.C131_raised.
Print Assumptions MlsMatch.C131_sign_refuted.
Print Assumptions MlsMatch.C131_apart_refuted.
Print Assumptions MlsMatch.C131_exact_refuted.
(** C132 *)
Print Assumptions MlsMatch.C132_ratio.
Print Assumptions MlsMatch.C132_self.
Print Assumptions MlsMatch.C132_tolerance.
Print Assumptions MlsMatch.C132_height_refuted.
Print Assumptions MlsMatch.C132_apart_refuted.
Print Assumptions MlsMatch.C132_patches_refuted.
Print Assumptions MlsMatch.C132_index.
Print Assumptions MlsMatch.C132_sampling_refuted.
(** C133 *)
Print Assumptions MlsMatch.C133_path.
Print Assumptions MlsMatch.C133_samples.
Print Assumptions MlsMatch.C133_outside_refuted.
Print Assumptions MlsMatch.C133_free_refuted.
(** C134 *)
Print Assumptions RectPair.C134_rectangles.
Print Assumptions RectPair.C134_all.
Print Assumptions RectPair.C134_tilt_refuted.
Print Assumptions RectPair.C134_larger_refuted.
(** C135 *)
Print Assumptions MapHeader.C135_read.
Print Assumptions MapHeader.C135_matrix.
Print Assumptions MapHeader.C135_frame.
Print Assumptions MapHeader.C135_missing_refuted.
(** C136 *)
Print Assumptions MapHeader.C136_header.
Print Assumptions MapHeader.C136_old.
Print Assumptions MapHeader.C136_mls.
Print Assumptions MapHeader.C136_no_stream.
Print Assumptions MapHeader.C136_create.
Print Assumptions MapHeader.C136_create_frame_refuted.
(** C137 *)
Print Assumptions Interp.C137_cells.
Print Assumptions Interp.C137_range.
Print Assumptions Interp.C137_plane.
Print Assumptions Interp.C137_update.
Print Assumptions Interp.C137_border_refuted.
Print Assumptions Interp.C137_hull_refuted.
(** C138 *)
Print Assumptions RectStats.C138_statistic.
Print Assumptions RectStats.C138_worst.
Print Assumptions RectStats.C138_probability.
Print Assumptions RectStats.C138_small_refuted.
Print Assumptions RectStats.C138_oblong_refuted.
(** C139 *)
Print Assumptions TravCache.C139_cells.
Print Assumptions TravCache.C139_copy_refuted.
Print Assumptions TravCache.C139_remove_refuted.
(** C140 *)
Print Assumptions FreeSpace.C140_beam.
Print Assumptions FreeSpace.C140_filled.
Print Assumptions FreeSpace.C140_outside.
Print Assumptions FreeSpace.C140_wedge.
Print Assumptions FreeSpace.C140_below_refuted.
Print Assumptions FreeSpace.C140_again_refuted.
(** C141 *)
Print Assumptions OldMaps.C141_refused.
Print Assumptions OldMaps.C141_content.
Print Assumptions OldMaps.C141_outside.
Print Assumptions OldMaps.C141_taken.
Print Assumptions OldMaps.C141_colour_refuted.
(** C142 *)
Print Assumptions EventFilters.C142_open.
Print Assumptions EventFilters.C142_filtered.
Print Assumptions EventFilters.C142_pass.
Print Assumptions EventFilters.C142_all.
Print Assumptions EventFilters.C142_apart.
Print Assumptions EventFilters.C142_remove.
Print Assumptions EventFilters.C142_deleted.
Print Assumptions EventFilters.C142_shared_refuted.
(** C143 *)
Print Assumptions QueueThreads.C143_once.
Print Assumptions QueueThreads.C143_pending.
Print Assumptions QueueThreads.C143_order.
Print Assumptions QueueThreads.C143_exclusive.
Print Assumptions QueueThreads.C143_progress.
Print Assumptions QueueThreads.C143_ends.
Print Assumptions QueueThreads.C143_deadlock.
Print Assumptions QueueThreads.C143_deadlock_refuted.
Print Assumptions QueueThreads.C143_again_refuted.
(** C144 *)
Print Assumptions SharedItems.C144_known.
Print Assumptions SharedItems.C144_taken.
(** C145 *)
Print Assumptions Weights.C145_all.
Print Assumptions Weights.C145_twice.
Print Assumptions Weights.C145_mean.
Print Assumptions Weights.C145_same.
Print Assumptions Weights.C145_deviation_refuted.
(** C146 *)
Print Assumptions Imports.C146_scan.
Print Assumptions Imports.C146_cloud.
Print Assumptions Imports.C146_failed.
Print Assumptions Imports.C146_leak_refuted.
Print Assumptions Imports.C146_free_refuted.
(** C147 *)
Print Assumptions CloudFiles.C147_again.
Print Assumptions CloudFiles.C147_old.
Print Assumptions CloudFiles.C147_counts.
Print Assumptions CloudFiles.C147_damaged.
Print Assumptions CloudFiles.C147_text_refuted.
