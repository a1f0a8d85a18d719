{
 "split_pair": [
  "C51_edge_ball_near_minimal",
  "C51_radius_bounds"
 ],
 "beam_undump": [
  "C24_roundtrip_other_hull"
 ],
 "beam_intersect": [
  "C25_whole_body_iff"
 ],
 "hull_planes": [
  "C48_hull_body",
  "C48_hull_length"
 ],
 "xfab_modules": [
  "C67_default_silent",
  "C67_other_loggers"
 ],
 "configure_device": [
  "C62_selects"
 ],
 "is_space": [
  "C62_selects"
 ],
 "lower_char": [
  "C62_selects"
 ],
 "uij_to_betaij": [
  "C61_formula"
 ],
 "rotation_angle": [
  "C78_misorientation"
 ],
 "ecentroid": [
  "C54_centroids"
 ],
 "mesh_rotate": [
  "C53_operations"
 ],
 "scherrer_K": [
  "C60_scherrer_formula"
 ],
 "airy_dist": [
  "C72_distance"
 ],
 "first_zero": [
  "C72_airy_shape"
 ],
 "airy_radius": [
  "C72_airy_shape"
 ],
 "airy_profile": [
  "C72_airy_shape"
 ],
 "airy_grid": [
  "C72_distance"
 ],
 "insert_unique": [
  "C23_rows_sorted"
 ],
 "select_zero_slack": [
  "C25_vertex_repair",
  "C25_edge_raises"
 ],
 "rmin": [
  "C27_step_bound"
 ],
 "bragg_angle": [
  "C11_bragg_angle"
 ],
 "airy_radius_loop": [
  "C44_radius"
 ],
 "inv_checked": [
  "C21_singular_B"
 ],
 "cell_circumradius": [
  "C76_spacing"
 ],
 "get_num": [
  "C55_types"
 ],
 "candidate_spheres_doc": [
  "C27_documented_layout_transposed"
 ],
 "nonnan": [
  "C35_missing_vertices_ignored"
 ],
 "second_of": [
  "C30_requested_pixels",
  "C30_sizes_positive"
 ],
 "make_phase": [
  "C56_volumes",
  "C76_sample"
 ],
 "nmax_list": [
  "C72_airy_batch"
 ],
 "make_detector": [
  "C30_other_failures_kind"
 ],
 "setup_planes": [
  "C87_same_as_unshared",
  "C87_up_to_date"
 ],
 "shared_step": [
  "C87_as_if_alone"
 ],
 "radius_note": [
  "C85_radius_note"
 ],
 "airy_wanted": [
  "C85_radius_note",
  "C85_auto_radius"
 ]
}