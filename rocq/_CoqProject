-Q theories Verif
theories/Ops.v
theories/M_scalar.v
theories/M_vec.v
theories/Inst_F.v
theories/Inst_XR.v
theories/S_order.v
theories/P_ord.v
theories/P_compare.v
theories/P_scalar_ord.v
theories/P_sort.v
theories/P_components.v
theories/P_order_final.v
theories/Props_order.v
theories/P_xr.v
theories/P_ieee.v
theories/P_round.v
theories/P_scalar_xr.v
theories/S_scalar.v
theories/P_solve.v
theories/P_quartic.v
theories/P_misc.v
theories/P_witness_scalar.v
theories/Props_scalar.v
theories/S_vec.v
theories/P_vec.v
theories/P_vec2.v
theories/Props_vec.v
theories/M_mat.v
theories/S_mat.v
theories/P_mat.v
theories/P_mat2.v
theories/P_lup.v
theories/P_ldet.v
theories/S_det.v
theories/P_det.v
theories/S_rot.v
theories/P_mat3.v
theories/P_cond.v
theories/Props_mat.v
theories/M_bbox.v
theories/M_quat.v
theories/M_matext.v
theories/S_quat.v
theories/P_quat.v
theories/S_affine.v
theories/P_affine.v
theories/P_rotmat.v
theories/Props_quat.v
theories/S_bbox.v
theories/P_nsatz.v
theories/P_matext.v
theories/P_matext2.v
theories/P_points.v
theories/P_lists.v
theories/Props_matext.v
theories/S_boxset.v
theories/P_bbox.v
theories/P_bbox2.v
theories/P_bbox3.v
theories/Props_bbox.v
theories/M_geom.v
theories/S_geom.v
theories/Inst_conv.v
theories/P_line.v
theories/P_seg.v
theories/P_plane.v
theories/Props_geom.v
theories/M_dist.v
theories/S_dist.v
theories/P_dist.v
theories/Props_dist.v
theories/M_intersect.v
theories/S_intersect.v
theories/P_intersect.v
theories/P_torus.v
theories/Props_intersect.v
theories/S_polygon.v
theories/P_poly2d.v
theories/P_polygon.v
theories/S_winding.v
theories/P_wind2d.v
theories/P_winding.v
theories/Props_polygon.v
theories/M_polygon.v
theories/S_pgon.v
theories/P_pgon.v
theories/P_pgon2.v
theories/Props_pgon.v
theories/M_approx.v
theories/S_approx.v
theories/S_bezier.v
theories/P_approx.v
theories/P_bezier.v
theories/Props_approx.v
theories/M_io.v
theories/S_io.v
theories/P_io.v
theories/P_io2.v
theories/Props_io.v
theories/M_hull.v
theories/S_hull.v
theories/P_hull2d.v
theories/P_hull.v
theories/P_hull3.v
theories/P_hull4.v
theories/P_hull5.v
theories/Props_hull.v
theories/S_sqrt.v
theories/M_constexpr.v
theories/P_sqrtc.v
theories/P_sqrtc2.v
theories/P_constexpr.v
theories/Props_sqrt.v
theories/S_comp.v
theories/P_comp.v
theories/Props_comp.v
theories/P_equal.v
theories/Props_equal.v
theories/S_rnd.v
theories/P_fp.v
theories/P_fp2.v
theories/P_fp3.v
theories/P_fp4.v
theories/P_fp5.v
theories/Props_fp.v
theories/P_fp6.v
theories/P_fp7.v
theories/P_fp8.v
theories/Props_exact.v
theories/M_limits.v
theories/P_limits.v
theories/P_pi.v
theories/P_angle.v
theories/Props_limits.v
theories/Inst_I.v
theories/S_int.v
theories/P_int.v
theories/P_int2.v
theories/P_int3.v
theories/Props_int.v
theories/M_convert.v
theories/S_convert.v
theories/P_convert.v
theories/Props_convert.v
theories/P_small.v
theories/P_dist2.v
theories/S_grid.v
theories/P_grid.v
theories/P_grid2.v
theories/P_grid3.v
theories/P_grid4.v
theories/P_grid5.v
theories/P_grid6.v
theories/Props_grid.v
theories/P_correct.v
theories/S_hullg.v
theories/P_hullg.v
theories/P_hullg2.v
theories/P_hullg3.v
theories/Props_hullg.v
theories/P_snapg.v
theories/P_snapg2.v
theories/P_snapg3.v
theories/Props_snapg.v
theories/S_rigid.v
theories/P_rigid.v
theories/P_rigid2.v
theories/P_rigid3.v
theories/P_rigid4.v
theories/P_rigid5.v
theories/Props_rigid.v
theories/P_compose.v
theories/P_compose2.v
theories/Props_compose.v
theories/P_euler.v
theories/S_safe.v
theories/P_safe.v
theories/P_safe2.v
theories/P_safe3.v
theories/P_safe4.v
theories/Props_safe.v
theories/P_hull6.v
theories/P_hullg4.v
theories/Props_hullset.v
theories/S_hit.v
theories/P_hit.v
theories/P_hit2.v
theories/P_hit3.v
theories/P_hit4.v
theories/P_hit5.v
theories/Props_hit.v
theories/S_ft.v
theories/P_ft.v
theories/P_ft2.v
theories/P_ft3.v
theories/P_ft4.v
theories/P_ft5.v
theories/Props_ft.v
theories/S_tri.v
theories/P_tri.v
theories/P_tri2.v
theories/P_tri3.v
theories/Props_tri.v
theories/S_lu.v
theories/P_lu.v
theories/P_lu2.v
theories/P_lu3.v
theories/P_lu4.v
theories/P_lu5.v
theories/Props_lu.v
theories/S_chain.v
theories/P_chain.v
theories/P_chain2.v
theories/P_chain3.v
theories/Props_chain.v
theories/M_polyiter.v
theories/P_polyiter.v
theories/Props_polyiter.v
theories/S_tbox.v
theories/P_tbox.v
theories/P_tbox2.v
theories/P_tbox3.v
theories/P_tbox4.v
theories/P_tbox5.v
theories/P_tbox6.v
theories/Props_tbox.v
theories/S_raybox.v
theories/P_raybox.v
theories/P_raybox2.v
theories/P_raybox3.v
theories/Props_raybox.v
theories/S_sphere.v
theories/P_sphere.v
theories/P_sphere2.v
theories/Props_sphere.v
theories/S_raytri.v
theories/P_raytri.v
theories/P_raytri2.v
theories/Props_raytri.v
theories/S_planes.v
theories/P_planes.v
theories/P_planes2.v
theories/Props_planes.v
theories/S_polyf.v
theories/P_polyf.v
theories/P_polyf2.v
theories/P_polyf3.v
theories/Props_polyf.v
theories/S_distf.v
theories/P_distf.v
theories/P_distf2.v
theories/P_distf3.v
theories/Props_distf.v
theories/S_raypoly.v
theories/P_raypoly.v
theories/P_raypoly2.v
theories/Props_raypoly.v
theories/S_projf.v
theories/P_projf.v
theories/Props_projf.v
theories/P_atf.v
theories/P_atf2.v
theories/Props_atf.v
theories/P_avgf.v
theories/Props_avgf.v
theories/P_bezf.v
theories/P_bezf2.v
theories/Props_bezf.v
theories/P_detf.v
theories/P_detf2.v
theories/Props_detf.v
theories/P_quadf.v
theories/Props_quadf.v
theories/P_trf.v
theories/Props_trf.v
theories/S_trs.v
theories/P_trs.v
theories/Props_trs.v
