{
 "GeomModel.transform_pts_3d:homogeneous inputs homogenised again": [
  "C20_pts_3d_homogeneous",
  "C20_pts_3d_width"
 ],
 "SlamModel.choose_odom:icp builds gradicp": [
  "C45_odometry_names",
  "C45_fusion_arguments"
 ],
 "TextModel.is_space:carriage return is not white space": [
  "C55_rgbd",
  "C56_icl",
  "C58_poses",
  "C62_rows"
 ],
 "Se3Model.se3_hat:last row of a transform": [
  "C24_hat"
 ],
 "Se3Model.se3_eps:threshold 0.1": [
  "C24_so3_exp",
  "C24_se3_exp",
  "C25_error_bound_partial",
  "C50_rigid_partial"
 ]
}