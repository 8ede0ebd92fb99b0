{
 "C80_rgb_to_cmyk": [
  "ClassicalDedekindReals.sig_not_dec",
  "ClassicalDedekindReals.sig_forall_dec",
  "FunctionalExtensionality.functional_extensionality_dep",
  "Classical_Prop.classic"
 ],
 "C81_hsv": [
  "ClassicalDedekindReals.sig_not_dec",
  "ClassicalDedekindReals.sig_forall_dec",
  "FunctionalExtensionality.functional_extensionality_dep",
  "Classical_Prop.classic"
 ],
 "C81_grey": [
  "ClassicalDedekindReals.sig_not_dec",
  "ClassicalDedekindReals.sig_forall_dec",
  "FunctionalExtensionality.functional_extensionality_dep",
  "Classical_Prop.classic"
 ],
 "C82_over_opaque": [
  "ClassicalDedekindReals.sig_not_dec",
  "ClassicalDedekindReals.sig_forall_dec",
  "FunctionalExtensionality.functional_extensionality_dep",
  "Classical_Prop.classic"
 ],
 "C82_hides": [
  "ClassicalDedekindReals.sig_not_dec",
  "ClassicalDedekindReals.sig_forall_dec",
  "FunctionalExtensionality.functional_extensionality_dep",
  "Classical_Prop.classic"
 ],
 "C83_interpolate": [
  "ClassicalDedekindReals.sig_not_dec",
  "ClassicalDedekindReals.sig_forall_dec",
  "FunctionalExtensionality.functional_extensionality_dep",
  "Classical_Prop.classic"
 ],
 "C83_ends": [
  "ClassicalDedekindReals.sig_not_dec",
  "ClassicalDedekindReals.sig_forall_dec",
  "FunctionalExtensionality.functional_extensionality_dep",
  "Classical_Prop.classic"
 ],
 "C85_from_hsv": [
  "ClassicalDedekindReals.sig_not_dec",
  "ClassicalDedekindReals.sig_forall_dec",
  "FunctionalExtensionality.functional_extensionality_dep",
  "Classical_Prop.classic"
 ],
 "C85_round_trip": [
  "ClassicalDedekindReals.sig_not_dec",
  "ClassicalDedekindReals.sig_forall_dec",
  "FunctionalExtensionality.functional_extensionality_dep",
  "Classical_Prop.classic"
 ],
 "C92_equal": [
  "ClassicalDedekindReals.sig_not_dec",
  "ClassicalDedekindReals.sig_forall_dec",
  "FunctionalExtensionality.functional_extensionality_dep",
  "Classical_Prop.classic"
 ],
 "C92_consistent": [
  "ClassicalDedekindReals.sig_not_dec",
  "ClassicalDedekindReals.sig_forall_dec",
  "FunctionalExtensionality.functional_extensionality_dep",
  "Classical_Prop.classic"
 ],
 "C92_order": [
  "ClassicalDedekindReals.sig_not_dec",
  "ClassicalDedekindReals.sig_forall_dec",
  "FunctionalExtensionality.functional_extensionality_dep",
  "Classical_Prop.classic"
 ],
 "C92_large_refuted": [
  "ClassicalDedekindReals.sig_not_dec",
  "ClassicalDedekindReals.sig_forall_dec",
  "FunctionalExtensionality.functional_extensionality_dep",
  "Classical_Prop.classic"
 ],
 "C93_round": [
  "ClassicalDedekindReals.sig_not_dec",
  "ClassicalDedekindReals.sig_forall_dec",
  "FunctionalExtensionality.functional_extensionality_dep",
  "Classical_Prop.classic"
 ],
 "C93_integer_refuted": [
  "ClassicalDedekindReals.sig_not_dec",
  "ClassicalDedekindReals.sig_forall_dec",
  "FunctionalExtensionality.functional_extensionality_dep",
  "Classical_Prop.classic"
 ],
 "C93_large": [
  "ClassicalDedekindReals.sig_not_dec",
  "ClassicalDedekindReals.sig_forall_dec",
  "FunctionalExtensionality.functional_extensionality_dep",
  "Classical_Prop.classic"
 ],
 "C93_fraction": [
  "ClassicalDedekindReals.sig_not_dec",
  "ClassicalDedekindReals.sig_forall_dec",
  "FunctionalExtensionality.functional_extensionality_dep",
  "Classical_Prop.classic"
 ],
 "C93_fraction_refuted": [
  "ClassicalDedekindReals.sig_not_dec",
  "ClassicalDedekindReals.sig_forall_dec",
  "FunctionalExtensionality.functional_extensionality_dep",
  "Classical_Prop.classic"
 ],
 "C94_begin": [
  "ClassicalDedekindReals.sig_not_dec",
  "ClassicalDedekindReals.sig_forall_dec",
  "FunctionalExtensionality.functional_extensionality_dep",
  "Classical_Prop.classic"
 ],
 "C94_monotone": [
  "ClassicalDedekindReals.sig_not_dec",
  "ClassicalDedekindReals.sig_forall_dec",
  "FunctionalExtensionality.functional_extensionality_dep",
  "Classical_Prop.classic"
 ],
 "C94_end": [
  "ClassicalDedekindReals.sig_not_dec",
  "ClassicalDedekindReals.sig_forall_dec",
  "FunctionalExtensionality.functional_extensionality_dep",
  "Classical_Prop.classic"
 ],
 "C94_grid": [
  "ClassicalDedekindReals.sig_not_dec",
  "ClassicalDedekindReals.sig_forall_dec",
  "FunctionalExtensionality.functional_extensionality_dep",
  "Classical_Prop.classic"
 ],
 "C94_position": [
  "ClassicalDedekindReals.sig_not_dec",
  "ClassicalDedekindReals.sig_forall_dec",
  "FunctionalExtensionality.functional_extensionality_dep",
  "Classical_Prop.classic"
 ],
 "C96_edges": [
  "ClassicalDedekindReals.sig_not_dec",
  "ClassicalDedekindReals.sig_forall_dec",
  "FunctionalExtensionality.functional_extensionality_dep",
  "Classical_Prop.classic"
 ],
 "C96_set": [
  "ClassicalDedekindReals.sig_not_dec",
  "ClassicalDedekindReals.sig_forall_dec",
  "FunctionalExtensionality.functional_extensionality_dep",
  "Classical_Prop.classic"
 ],
 "C96_shift": [
  "ClassicalDedekindReals.sig_not_dec",
  "ClassicalDedekindReals.sig_forall_dec",
  "FunctionalExtensionality.functional_extensionality_dep",
  "Classical_Prop.classic"
 ],
 "C96_move": [
  "ClassicalDedekindReals.sig_not_dec",
  "ClassicalDedekindReals.sig_forall_dec",
  "FunctionalExtensionality.functional_extensionality_dep",
  "Classical_Prop.classic"
 ],
 "C96_align": [
  "ClassicalDedekindReals.sig_not_dec",
  "ClassicalDedekindReals.sig_forall_dec",
  "FunctionalExtensionality.functional_extensionality_dep",
  "Classical_Prop.classic"
 ],
 "C96_normalize": [
  "ClassicalDedekindReals.sig_not_dec",
  "ClassicalDedekindReals.sig_forall_dec",
  "FunctionalExtensionality.functional_extensionality_dep",
  "Classical_Prop.classic"
 ],
 "C96_center": [
  "ClassicalDedekindReals.sig_not_dec",
  "ClassicalDedekindReals.sig_forall_dec",
  "FunctionalExtensionality.functional_extensionality_dep",
  "Classical_Prop.classic"
 ],
 "C96_contains": [
  "ClassicalDedekindReals.sig_not_dec",
  "ClassicalDedekindReals.sig_forall_dec",
  "FunctionalExtensionality.functional_extensionality_dep",
  "Classical_Prop.classic"
 ],
 "C97_union": [
  "ClassicalDedekindReals.sig_not_dec",
  "ClassicalDedekindReals.sig_forall_dec",
  "FunctionalExtensionality.functional_extensionality_dep",
  "Classical_Prop.classic"
 ],
 "C97_union_contains": [
  "ClassicalDedekindReals.sig_not_dec",
  "ClassicalDedekindReals.sig_forall_dec",
  "FunctionalExtensionality.functional_extensionality_dep",
  "Classical_Prop.classic"
 ],
 "C97_intersect": [
  "ClassicalDedekindReals.sig_not_dec",
  "ClassicalDedekindReals.sig_forall_dec",
  "FunctionalExtensionality.functional_extensionality_dep",
  "Classical_Prop.classic"
 ],
 "C97_intersection": [
  "ClassicalDedekindReals.sig_not_dec",
  "ClassicalDedekindReals.sig_forall_dec",
  "FunctionalExtensionality.functional_extensionality_dep",
  "Classical_Prop.classic"
 ],
 "C97_common": [
  "ClassicalDedekindReals.sig_not_dec",
  "ClassicalDedekindReals.sig_forall_dec",
  "FunctionalExtensionality.functional_extensionality_dep",
  "Classical_Prop.classic"
 ],
 "C98_extents": [
  "ClassicalDedekindReals.sig_not_dec",
  "ClassicalDedekindReals.sig_forall_dec",
  "FunctionalExtensionality.functional_extensionality_dep",
  "Classical_Prop.classic"
 ],
 "C98_merge": [
  "ClassicalDedekindReals.sig_not_dec",
  "ClassicalDedekindReals.sig_forall_dec",
  "FunctionalExtensionality.functional_extensionality_dep",
  "Classical_Prop.classic"
 ],
 "C98_valid_refuted": [
  "ClassicalDedekindReals.sig_not_dec",
  "ClassicalDedekindReals.sig_forall_dec",
  "FunctionalExtensionality.functional_extensionality_dep",
  "Classical_Prop.classic"
 ],
 "C98_flat_refuted": [
  "ClassicalDedekindReals.sig_not_dec",
  "ClassicalDedekindReals.sig_forall_dec",
  "FunctionalExtensionality.functional_extensionality_dep",
  "Classical_Prop.classic"
 ],
 "C99_fixed": [
  "ClassicalDedekindReals.sig_not_dec",
  "ClassicalDedekindReals.sig_forall_dec",
  "FunctionalExtensionality.functional_extensionality_dep",
  "Classical_Prop.classic"
 ],
 "C99_cut": [
  "ClassicalDedekindReals.sig_not_dec",
  "ClassicalDedekindReals.sig_forall_dec",
  "FunctionalExtensionality.functional_extensionality_dep",
  "Classical_Prop.classic"
 ],
 "C99_exact": [
  "ClassicalDedekindReals.sig_not_dec",
  "ClassicalDedekindReals.sig_forall_dec",
  "FunctionalExtensionality.functional_extensionality_dep",
  "Classical_Prop.classic"
 ],
 "C99_integer": [
  "ClassicalDedekindReals.sig_not_dec",
  "ClassicalDedekindReals.sig_forall_dec",
  "FunctionalExtensionality.functional_extensionality_dep",
  "Classical_Prop.classic"
 ],
 "C100_precision0_refuted": [
  "ClassicalDedekindReals.sig_not_dec",
  "ClassicalDedekindReals.sig_forall_dec",
  "FunctionalExtensionality.functional_extensionality_dep",
  "Classical_Prop.classic"
 ],
 "C100_sign_refuted": [
  "ClassicalDedekindReals.sig_not_dec",
  "ClassicalDedekindReals.sig_forall_dec",
  "FunctionalExtensionality.functional_extensionality_dep",
  "Classical_Prop.classic"
 ],
 "C100_minus_zero_refuted": [
  "ClassicalDedekindReals.sig_not_dec",
  "ClassicalDedekindReals.sig_forall_dec",
  "FunctionalExtensionality.functional_extensionality_dep",
  "Classical_Prop.classic"
 ],
 "C100_range_refuted": [
  "ClassicalDedekindReals.sig_forall_dec",
  "FunctionalExtensionality.functional_extensionality_dep"
 ],
 "C100_digits_refuted": [
  "ClassicalDedekindReals.sig_not_dec",
  "ClassicalDedekindReals.sig_forall_dec",
  "FunctionalExtensionality.functional_extensionality_dep",
  "Classical_Prop.classic"
 ],
 "C102_exact": [
  "ClassicalDedekindReals.sig_not_dec",
  "ClassicalDedekindReals.sig_forall_dec",
  "FunctionalExtensionality.functional_extensionality_dep",
  "Classical_Prop.classic"
 ],
 "C102_identity": [
  "ClassicalDedekindReals.sig_not_dec",
  "ClassicalDedekindReals.sig_forall_dec",
  "FunctionalExtensionality.functional_extensionality_dep",
  "Classical_Prop.classic"
 ],
 "C102_assoc": [
  "ClassicalDedekindReals.sig_not_dec",
  "ClassicalDedekindReals.sig_forall_dec",
  "FunctionalExtensionality.functional_extensionality_dep",
  "Classical_Prop.classic"
 ],
 "C104_det": [
  "ClassicalDedekindReals.sig_not_dec",
  "ClassicalDedekindReals.sig_forall_dec",
  "FunctionalExtensionality.functional_extensionality_dep",
  "Classical_Prop.classic"
 ],
 "C104_transpose": [
  "ClassicalDedekindReals.sig_not_dec",
  "ClassicalDedekindReals.sig_forall_dec",
  "FunctionalExtensionality.functional_extensionality_dep",
  "Classical_Prop.classic"
 ],
 "C104_product": [
  "ClassicalDedekindReals.sig_not_dec",
  "ClassicalDedekindReals.sig_forall_dec",
  "FunctionalExtensionality.functional_extensionality_dep",
  "Classical_Prop.classic"
 ],
 "C105_exact": [
  "ClassicalDedekindReals.sig_not_dec",
  "ClassicalDedekindReals.sig_forall_dec",
  "FunctionalExtensionality.functional_extensionality_dep",
  "Classical_Prop.classic"
 ],
 "C105_near": [
  "ClassicalDedekindReals.sig_not_dec",
  "ClassicalDedekindReals.sig_forall_dec",
  "FunctionalExtensionality.functional_extensionality_dep",
  "Classical_Prop.classic"
 ],
 "C105_singular_refuted": [
  "ClassicalDedekindReals.sig_not_dec",
  "ClassicalDedekindReals.sig_forall_dec",
  "FunctionalExtensionality.functional_extensionality_dep",
  "Classical_Prop.classic"
 ],
 "C106_moving": [
  "ClassicalDedekindReals.sig_not_dec",
  "ClassicalDedekindReals.sig_forall_dec",
  "FunctionalExtensionality.functional_extensionality_dep",
  "Classical_Prop.classic"
 ],
 "C106_scaling": [
  "ClassicalDedekindReals.sig_not_dec",
  "ClassicalDedekindReals.sig_forall_dec",
  "FunctionalExtensionality.functional_extensionality_dep",
  "Classical_Prop.classic"
 ],
 "C106_scalingAt": [
  "ClassicalDedekindReals.sig_not_dec",
  "ClassicalDedekindReals.sig_forall_dec",
  "FunctionalExtensionality.functional_extensionality_dep",
  "Classical_Prop.classic"
 ],
 "C106_mirroring": [
  "ClassicalDedekindReals.sig_not_dec",
  "ClassicalDedekindReals.sig_forall_dec",
  "FunctionalExtensionality.functional_extensionality_dep",
  "Classical_Prop.classic"
 ],
 "C106_rotationZ": [
  "ClassicalDedekindReals.sig_not_dec",
  "ClassicalDedekindReals.sig_forall_dec",
  "FunctionalExtensionality.functional_extensionality_dep",
  "Classical_Prop.classic"
 ],
 "C106_rotation": [
  "ClassicalDedekindReals.sig_not_dec",
  "ClassicalDedekindReals.sig_forall_dec",
  "FunctionalExtensionality.functional_extensionality_dep",
  "Classical_Prop.classic"
 ],
 "C106_identity": [
  "ClassicalDedekindReals.sig_not_dec",
  "ClassicalDedekindReals.sig_forall_dec",
  "FunctionalExtensionality.functional_extensionality_dep",
  "Classical_Prop.classic"
 ],
 "C106_compose": [
  "ClassicalDedekindReals.sig_not_dec",
  "ClassicalDedekindReals.sig_forall_dec",
  "FunctionalExtensionality.functional_extensionality_dep",
  "Classical_Prop.classic"
 ],
 "C107_norm1": [
  "ClassicalDedekindReals.sig_not_dec",
  "ClassicalDedekindReals.sig_forall_dec",
  "FunctionalExtensionality.functional_extensionality_dep",
  "Classical_Prop.classic"
 ],
 "C107_normInf": [
  "ClassicalDedekindReals.sig_not_dec",
  "ClassicalDedekindReals.sig_forall_dec",
  "FunctionalExtensionality.functional_extensionality_dep",
  "Classical_Prop.classic"
 ],
 "C107_transpose": [
  "ClassicalDedekindReals.sig_not_dec",
  "ClassicalDedekindReals.sig_forall_dec",
  "FunctionalExtensionality.functional_extensionality_dep",
  "Classical_Prop.classic"
 ],
 "C107_trace_exact": [
  "ClassicalDedekindReals.sig_not_dec",
  "ClassicalDedekindReals.sig_forall_dec",
  "FunctionalExtensionality.functional_extensionality_dep",
  "Classical_Prop.classic"
 ],
 "C108_dot_exact": [
  "ClassicalDedekindReals.sig_not_dec",
  "ClassicalDedekindReals.sig_forall_dec",
  "FunctionalExtensionality.functional_extensionality_dep",
  "Classical_Prop.classic"
 ],
 "C108_length_exact": [
  "ClassicalDedekindReals.sig_not_dec",
  "ClassicalDedekindReals.sig_forall_dec",
  "FunctionalExtensionality.functional_extensionality_dep",
  "Classical_Prop.classic"
 ],
 "C108_length": [
  "ClassicalDedekindReals.sig_not_dec",
  "ClassicalDedekindReals.sig_forall_dec",
  "FunctionalExtensionality.functional_extensionality_dep",
  "Classical_Prop.classic"
 ],
 "C108_normalize": [
  "ClassicalDedekindReals.sig_not_dec",
  "ClassicalDedekindReals.sig_forall_dec",
  "FunctionalExtensionality.functional_extensionality_dep",
  "Classical_Prop.classic"
 ],
 "C109_products2": [
  "ClassicalDedekindReals.sig_not_dec",
  "ClassicalDedekindReals.sig_forall_dec",
  "FunctionalExtensionality.functional_extensionality_dep",
  "Classical_Prop.classic"
 ],
 "C109_side": [
  "ClassicalDedekindReals.sig_not_dec",
  "ClassicalDedekindReals.sig_forall_dec",
  "FunctionalExtensionality.functional_extensionality_dep",
  "Classical_Prop.classic"
 ],
 "C109_collinear2": [
  "ClassicalDedekindReals.sig_not_dec",
  "ClassicalDedekindReals.sig_forall_dec",
  "FunctionalExtensionality.functional_extensionality_dep",
  "Classical_Prop.classic"
 ],
 "C109_collinear_refuted": [
  "ClassicalDedekindReals.sig_not_dec",
  "ClassicalDedekindReals.sig_forall_dec",
  "FunctionalExtensionality.functional_extensionality_dep",
  "Classical_Prop.classic"
 ],
 "C109_products3": [
  "ClassicalDedekindReals.sig_not_dec",
  "ClassicalDedekindReals.sig_forall_dec",
  "FunctionalExtensionality.functional_extensionality_dep",
  "Classical_Prop.classic"
 ],
 "C109_perpendicular": [
  "ClassicalDedekindReals.sig_not_dec",
  "ClassicalDedekindReals.sig_forall_dec",
  "FunctionalExtensionality.functional_extensionality_dep",
  "Classical_Prop.classic"
 ],
 "C109_collinear3": [
  "ClassicalDedekindReals.sig_not_dec",
  "ClassicalDedekindReals.sig_forall_dec",
  "FunctionalExtensionality.functional_extensionality_dep",
  "Classical_Prop.classic"
 ],
 "C109_length_exact": [
  "ClassicalDedekindReals.sig_not_dec",
  "ClassicalDedekindReals.sig_forall_dec",
  "FunctionalExtensionality.functional_extensionality_dep",
  "Classical_Prop.classic"
 ],
 "C109_length3_exact": [
  "ClassicalDedekindReals.sig_not_dec",
  "ClassicalDedekindReals.sig_forall_dec",
  "FunctionalExtensionality.functional_extensionality_dep",
  "Classical_Prop.classic"
 ],
 "C109_length": [
  "ClassicalDedekindReals.sig_not_dec",
  "ClassicalDedekindReals.sig_forall_dec",
  "FunctionalExtensionality.functional_extensionality_dep",
  "Classical_Prop.classic"
 ],
 "C109_length3": [
  "ClassicalDedekindReals.sig_not_dec",
  "ClassicalDedekindReals.sig_forall_dec",
  "FunctionalExtensionality.functional_extensionality_dep",
  "Classical_Prop.classic"
 ],
 "C109_normalized": [
  "ClassicalDedekindReals.sig_not_dec",
  "ClassicalDedekindReals.sig_forall_dec",
  "FunctionalExtensionality.functional_extensionality_dep",
  "Classical_Prop.classic"
 ],
 "C109_normalized3": [
  "ClassicalDedekindReals.sig_not_dec",
  "ClassicalDedekindReals.sig_forall_dec",
  "FunctionalExtensionality.functional_extensionality_dep",
  "Classical_Prop.classic"
 ],
 "C109_normalized_refuted": [
  "ClassicalDedekindReals.sig_not_dec",
  "ClassicalDedekindReals.sig_forall_dec",
  "FunctionalExtensionality.functional_extensionality_dep",
  "Classical_Prop.classic"
 ],
 "C109_equal_near": [
  "ClassicalDedekindReals.sig_not_dec",
  "ClassicalDedekindReals.sig_forall_dec",
  "FunctionalExtensionality.functional_extensionality_dep",
  "Classical_Prop.classic"
 ],
 "C109_biggest": [
  "ClassicalDedekindReals.sig_not_dec",
  "ClassicalDedekindReals.sig_forall_dec",
  "FunctionalExtensionality.functional_extensionality_dep",
  "Classical_Prop.classic"
 ],
 "C109_biggest_refuted": [
  "ClassicalDedekindReals.sig_not_dec",
  "ClassicalDedekindReals.sig_forall_dec",
  "FunctionalExtensionality.functional_extensionality_dep",
  "Classical_Prop.classic"
 ],
 "C109_independent": [
  "ClassicalDedekindReals.sig_not_dec",
  "ClassicalDedekindReals.sig_forall_dec",
  "FunctionalExtensionality.functional_extensionality_dep",
  "Classical_Prop.classic"
 ],
 "C110_solve": [
  "ClassicalDedekindReals.sig_not_dec",
  "ClassicalDedekindReals.sig_forall_dec",
  "FunctionalExtensionality.functional_extensionality_dep",
  "Classical_Prop.classic"
 ],
 "C110_lines": [
  "ClassicalDedekindReals.sig_not_dec",
  "ClassicalDedekindReals.sig_forall_dec",
  "FunctionalExtensionality.functional_extensionality_dep",
  "Classical_Prop.classic"
 ],
 "C111_crosses": [
  "ClassicalDedekindReals.sig_not_dec",
  "ClassicalDedekindReals.sig_forall_dec",
  "FunctionalExtensionality.functional_extensionality_dep",
  "Classical_Prop.classic"
 ],
 "C111_overlap_refuted": [
  "ClassicalDedekindReals.sig_not_dec",
  "ClassicalDedekindReals.sig_forall_dec",
  "FunctionalExtensionality.functional_extensionality_dep",
  "Classical_Prop.classic"
 ],
 "C111_small_refuted": [
  "ClassicalDedekindReals.sig_not_dec",
  "ClassicalDedekindReals.sig_forall_dec",
  "FunctionalExtensionality.functional_extensionality_dep",
  "Classical_Prop.classic"
 ],
 "C112_plane": [
  "ClassicalDedekindReals.sig_not_dec",
  "ClassicalDedekindReals.sig_forall_dec",
  "FunctionalExtensionality.functional_extensionality_dep",
  "Classical_Prop.classic"
 ],
 "C112_closest": [
  "ClassicalDedekindReals.sig_not_dec",
  "ClassicalDedekindReals.sig_forall_dec",
  "FunctionalExtensionality.functional_extensionality_dep",
  "Classical_Prop.classic"
 ],
 "C112_on_line": [
  "ClassicalDedekindReals.sig_not_dec",
  "ClassicalDedekindReals.sig_forall_dec",
  "FunctionalExtensionality.functional_extensionality_dep",
  "Classical_Prop.classic"
 ],
 "C112_on_segment": [
  "ClassicalDedekindReals.sig_not_dec",
  "ClassicalDedekindReals.sig_forall_dec",
  "FunctionalExtensionality.functional_extensionality_dep",
  "Classical_Prop.classic"
 ],
 "C112_same": [
  "ClassicalDedekindReals.sig_not_dec",
  "ClassicalDedekindReals.sig_forall_dec",
  "FunctionalExtensionality.functional_extensionality_dep",
  "Classical_Prop.classic"
 ],
 "C112_on_plane_refuted": [
  "ClassicalDedekindReals.sig_not_dec",
  "ClassicalDedekindReals.sig_forall_dec",
  "FunctionalExtensionality.functional_extensionality_dep",
  "Classical_Prop.classic"
 ],
 "C113_circle": [
  "ClassicalDedekindReals.sig_not_dec",
  "ClassicalDedekindReals.sig_forall_dec",
  "FunctionalExtensionality.functional_extensionality_dep",
  "Classical_Prop.classic"
 ],
 "C113_collinear_refuted": [
  "ClassicalDedekindReals.sig_not_dec",
  "ClassicalDedekindReals.sig_forall_dec",
  "FunctionalExtensionality.functional_extensionality_dep",
  "Classical_Prop.classic"
 ],
 "C114_angle": [
  "ClassicalDedekindReals.sig_not_dec",
  "ClassicalDedekindReals.sig_forall_dec",
  "FunctionalExtensionality.functional_extensionality_dep",
  "Classical_Prop.classic"
 ],
 "C115_curve": [
  "ClassicalDedekindReals.sig_not_dec",
  "ClassicalDedekindReals.sig_forall_dec",
  "FunctionalExtensionality.functional_extensionality_dep",
  "Classical_Prop.classic"
 ],
 "C115_hull": [
  "ClassicalDedekindReals.sig_not_dec",
  "ClassicalDedekindReals.sig_forall_dec",
  "FunctionalExtensionality.functional_extensionality_dep",
  "Classical_Prop.classic"
 ],
 "C115_local": [
  "ClassicalDedekindReals.sig_not_dec",
  "ClassicalDedekindReals.sig_forall_dec",
  "FunctionalExtensionality.functional_extensionality_dep",
  "Classical_Prop.classic"
 ],
 "C115_start": [
  "ClassicalDedekindReals.sig_not_dec",
  "ClassicalDedekindReals.sig_forall_dec",
  "FunctionalExtensionality.functional_extensionality_dep",
  "Classical_Prop.classic"
 ],
 "C116_outside": [
  "ClassicalDedekindReals.sig_not_dec",
  "ClassicalDedekindReals.sig_forall_dec",
  "FunctionalExtensionality.functional_extensionality_dep",
  "Classical_Prop.classic"
 ],
 "C116_end_refuted": [
  "ClassicalDedekindReals.sig_not_dec",
  "ClassicalDedekindReals.sig_forall_dec",
  "FunctionalExtensionality.functional_extensionality_dep",
  "Classical_Prop.classic"
 ],
 "C118_unit": [
  "ClassicalDedekindReals.sig_not_dec",
  "ClassicalDedekindReals.sig_forall_dec",
  "FunctionalExtensionality.functional_extensionality_dep",
  "Classical_Prop.classic"
 ],
 "C121_double": [
  "ClassicalDedekindReals.sig_not_dec",
  "ClassicalDedekindReals.sig_forall_dec",
  "FunctionalExtensionality.functional_extensionality_dep",
  "Classical_Prop.classic"
 ],
 "C121_vertex": [
  "ClassicalDedekindReals.sig_not_dec",
  "ClassicalDedekindReals.sig_forall_dec",
  "FunctionalExtensionality.functional_extensionality_dep",
  "Classical_Prop.classic"
 ],
 "C121_small_refuted": [
  "ClassicalDedekindReals.sig_not_dec",
  "ClassicalDedekindReals.sig_forall_dec",
  "FunctionalExtensionality.functional_extensionality_dep",
  "Classical_Prop.classic"
 ],
 "C123_frame": [
  "ClassicalDedekindReals.sig_not_dec",
  "ClassicalDedekindReals.sig_forall_dec",
  "FunctionalExtensionality.functional_extensionality_dep",
  "Classical_Prop.classic"
 ],
 "C123_coordinates": [
  "ClassicalDedekindReals.sig_not_dec",
  "ClassicalDedekindReals.sig_forall_dec",
  "FunctionalExtensionality.functional_extensionality_dep",
  "Classical_Prop.classic"
 ],
 "C123_roundtrip": [
  "ClassicalDedekindReals.sig_not_dec",
  "ClassicalDedekindReals.sig_forall_dec",
  "FunctionalExtensionality.functional_extensionality_dep",
  "Classical_Prop.classic"
 ],
 "C123_world": [
  "ClassicalDedekindReals.sig_not_dec",
  "ClassicalDedekindReals.sig_forall_dec",
  "FunctionalExtensionality.functional_extensionality_dep",
  "Classical_Prop.classic"
 ],
 "C123_below": [
  "ClassicalDedekindReals.sig_not_dec",
  "ClassicalDedekindReals.sig_forall_dec",
  "FunctionalExtensionality.functional_extensionality_dep",
  "Classical_Prop.classic"
 ],
 "C123_length_refuted": [
  "ClassicalDedekindReals.sig_not_dec",
  "ClassicalDedekindReals.sig_forall_dec",
  "FunctionalExtensionality.functional_extensionality_dep",
  "Classical_Prop.classic"
 ],
 "C125_execute": [
  "ClassicalDedekindReals.sig_not_dec",
  "ClassicalDedekindReals.sig_forall_dec",
  "FunctionalExtensionality.functional_extensionality_dep",
  "Classical_Prop.classic"
 ],
 "C125_success": [
  "ClassicalDedekindReals.sig_not_dec",
  "ClassicalDedekindReals.sig_forall_dec",
  "FunctionalExtensionality.functional_extensionality_dep",
  "Classical_Prop.classic"
 ],
 "C125_no_such_test_refuted": [
  "ClassicalDedekindReals.sig_not_dec",
  "ClassicalDedekindReals.sig_forall_dec",
  "FunctionalExtensionality.functional_extensionality_dep",
  "Classical_Prop.classic"
 ],
 "C125_foreign_exception_refuted": [
  "ClassicalDedekindReals.sig_not_dec",
  "ClassicalDedekindReals.sig_forall_dec",
  "FunctionalExtensionality.functional_extensionality_dep",
  "Classical_Prop.classic"
 ],
 "C131_min_max": [
  "ClassicalDedekindReals.sig_not_dec",
  "ClassicalDedekindReals.sig_forall_dec",
  "FunctionalExtensionality.functional_extensionality_dep",
  "Classical_Prop.classic"
 ],
 "C131_grid": [
  "ClassicalDedekindReals.sig_not_dec",
  "ClassicalDedekindReals.sig_forall_dec",
  "FunctionalExtensionality.functional_extensionality_dep",
  "Classical_Prop.classic"
 ],
 "C131_size_equal": [
  "ClassicalDedekindReals.sig_not_dec",
  "ClassicalDedekindReals.sig_forall_dec",
  "FunctionalExtensionality.functional_extensionality_dep",
  "Classical_Prop.classic"
 ],
 "C131_size_consistent": [
  "ClassicalDedekindReals.sig_not_dec",
  "ClassicalDedekindReals.sig_forall_dec",
  "FunctionalExtensionality.functional_extensionality_dep",
  "Classical_Prop.classic"
 ],
 "C131_times": [
  "ClassicalDedekindReals.sig_not_dec",
  "ClassicalDedekindReals.sig_forall_dec",
  "FunctionalExtensionality.functional_extensionality_dep",
  "Classical_Prop.classic"
 ],
 "C132_double": [
  "ClassicalDedekindReals.sig_not_dec",
  "ClassicalDedekindReals.sig_forall_dec",
  "FunctionalExtensionality.functional_extensionality_dep",
  "Classical_Prop.classic"
 ],
 "C132_double_tolerance": [
  "ClassicalDedekindReals.sig_not_dec",
  "ClassicalDedekindReals.sig_forall_dec",
  "FunctionalExtensionality.functional_extensionality_dep",
  "Classical_Prop.classic"
 ],
 "C132_vertices": [
  "ClassicalDedekindReals.sig_not_dec",
  "ClassicalDedekindReals.sig_forall_dec",
  "FunctionalExtensionality.functional_extensionality_dep",
  "Classical_Prop.classic"
 ]
}