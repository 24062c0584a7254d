"""Wrong programs: (file, definition, old text, new text, what the edit breaks).
The old text must occur in the definition; the first occurrence is replaced."""
M = []
def m(f, d, old, new, claim): M.append((f, d, old, new, claim))

# --- grid
m("GridM","mk_grid","(pml + 1)","pml","C03: the stored layer thickness is the requested one plus 1")
m("GridM","mk_grid","(dx / 2)%num rs","dx rs","C03: dt = dx/2 (C20: stable time step)")
m("GridM","mk_grid","(dx * nofZ (Nx - 1))%num (dx","(dx * nofZ Nx)%num (dx","C03/C04: reported length; a point at the edge would be cell Nx")
m("GridM","mk_grid","Ny <- ofOption BadCast (nceil (Ly * rs)%num)","Ny <- ofOption BadCast (nceil (Lx * rs)%num)","C03: Ny = ceil(Ly*res)")
m("GridM","mk_grid","Nx <- ofOption BadCast (nceil","Nx <- ofOption BadCast (nround","C03: Nx = ceil(Lx*res)")
m("GridM","to_grid","nround (snd p / g_dx g)","nfloor (snd p / g_dx g)","C02: nearest cell")
m("GridM","to_grid","Ok (x, y)","Ok (y, x)","C01: round trip")
m("GridM","to_real","(g_dx g * nofZ (fst pi), g_dx g * nofZ (snd pi))","(g_dx g * nofZ (snd pi), g_dx g * nofZ (fst pi))","C01: round trip")
m("GridM","to_grid_surface","(s_sign s)","Positive","C05: the sign is carried over")
m("GridM","to_grid_surface","mk_isurface a b","mk_isurface b a","C05: the end points keep their order")
m("GridM","iclip","if fst (iv_a v) <? 0 then 0 else fst (iv_a v)","fst (iv_a v)","C13: a box over the left edge is clipped")
m("GridM","iclip","if g_Ny g - 1 <? snd (iv_b v) then g_Ny g - 1 else snd (iv_b v)","if g_Ny g <? snd (iv_b v) then g_Ny g else snd (iv_b v)","C13: a box over the upper edge is clipped to the last row")
m("GridM","iclip","if g_Ny g - 1 <? snd (iv_b v) then g_Ny g - 1 else snd (iv_b v)","if g_Ny g - 2 <? snd (iv_b v) then g_Ny g - 2 else snd (iv_b v)","C12: no in-grid cell is lost")
m("GridM","interior","g_Ly g - p)","g_Ly g)","C22: the interior excludes the upper layer")
m("GridM","domain","(0, 0)%num","(1, 0)%num","C04: the domain starts at the origin")
# --- vec
m("VecM","mk_surface","then Ok (sn * 1, sn * 0)%num","then Ok (sn * 0, sn * 1)%num","C06: the normal is orthogonal to the tangent")
m("VecM","mk_surface","let d := vsub b a in","let d := vsub a b in","C06: sides join end to start (tangent from a to b)")
m("VecM","mk_isurface","then Ok (sn, 0)","then Ok (1, 0)","C05: the normal of the converted surface carries the sign")
m("VecM","mk_isurface","(fst b - fst a, snd b - snd a)","(fst a - fst b, snd a - snd b)","C05/C29: the tangent points from a to b")
m("VecM","get_surface","mk_surface b (fst a, snd b) Positive","mk_surface b (fst a, snd b) Negative","C06/C33: the normal of the upper side points outwards")
m("VecM","get_surface","mk_surface (fst b, snd a) b Positive","mk_surface b (fst b, snd a) Positive","C06: sides join end to start")
m("VecM","vol_pad","(vadd (v_b v) (size, size))","(v_b v)","C07: pad keeps the centre")
m("VecM","vol_translate","(vadd (v_b v) p)","(v_b v)","C07: translate keeps the dimensions")
m("VecM","mk_volume_c","(vsub center (vdivs (lx, ly) 2%num))","(vsub center (lx, ly))","C07: centre and dimensions")
m("VecM","cs_tangent","(- nsin theta, ncos theta)","(nsin theta, ncos theta)","C33/C34: cylinder tangent orthogonal to the normal")
m("VecM","cs_position","vadd (vscale (cs_radius c) (cs_normal theta)) (cs_center c)","vscale (cs_radius c) (cs_normal theta)","C30/C58: cylinder samples lie on the cylinder")
# --- geometry
m("GeometryM","geom_inside","vsqnorm v <? npow r 2","vsqnorm v <? r","C08/C09: the cylinder has radius r")
m("GeometryM","geom_inside","npow (fst v / rx) 2 + npow (snd v / ry) 2","npow (fst v / ry) 2 + npow (snd v / rx) 2","C08: the box contains the ellipse")
m("GeometryM","geom_inside","(0 <? fst e)%num || (0 <? snd e)%num","(0 <? fst e)%num && (0 <? snd e)%num","C08: the box contains the block")
m("GeometryM","geom_box","(c * fst d + ms * snd d, s * fst d + c * snd d)","(c * fst d + ms * snd d, c * fst d + s * snd d)","C08: bounding box of a rotated object")
m("GeometryM","geom_box","let c := nabs (ncos theta)","let c := ncos theta","C08: bounding box at angles over a quarter turn")
m("GeometryM","stored_box","mk_volume (- rx, - ry)%num (rx, ry)","mk_volume (- rx, - rx)%num (rx, rx)","C08: bounding box of a tall ellipse")
m("GeometryM","unrotate","ncos (- theta)%num","ncos theta","C09: equivalent edit: cos(-x) = cos x, should survive")
m("GeometryM","unrotate","nsin (- theta)%num","nsin theta","C09: the object turns anticlockwise")
m("GeometryM","place_inside","(unrotate theta (vneg pos))","(vneg pos)","C09: rotation about the object's position")
m("GeometryM","place_box","vol_translate (geom_box g theta) pos","geom_box g theta","C08: the box follows the object")
# --- materials
m("MaterialM","simple_Ca","(1 - sm_conduc","(1 + sm_conduc","C42: lossy medium")
m("MaterialM","simple_Cb","/ (1 + sm_conduc m * dt / (2 * sm_eps m))","","C42: lossy medium")
m("MaterialM","simple_Cb","(dt / sm_eps m)","(dt / sm_mu m)","C42: permittivity")
m("MaterialM","debye_beta1","(dp_deps p * dt / dp_tau p)","(dp_deps p / dp_tau p)","C44: Debye equation")
m("MaterialM","debye_kappa1","(1 - dt /","(1 + dt /","C44: Debye equation")
m("MaterialM","debye_Cb","2 * db_eps m + nsum","db_eps m + nsum","C44: Debye equation")
m("MaterialM","drude_beta1","npow (up_omega p) 2 * dt / 2","npow (up_omega p) 2 * dt","C45: Drude equation")
m("MaterialM","drude_Ca","2 * dr_eps m - dt * s","2 * dr_eps m + dt * s","C45: Drude equation")
m("MaterialM","drude_Cb","2 * dr_eps m + dt * s","2 * dr_eps m + s","C45: Drude equation")
m("MaterialM","lorentz_alpha1","2 - npow (lp_omega p) 2","1 - npow (lp_omega p) 2","C46: Lorentz equation (resonator part)")
m("MaterialM","lorentz_beta1","(lp_gamma p * dt - 1)","(lp_gamma p * dt + 1)","C46: Lorentz equation (resonator part)")
m("MaterialM","lorentz_delta1","lp_deps p * npow (lp_omega p) 2","lp_deps p * lp_omega p","C46/C49: Lorentz equation")
m("MaterialM","lorentz_Ca","+ s / 2","+ s","C46: coefficients of the Lorentz update")
m("MaterialM","lorentz_Ca_prev","(2 * lo_eps m + s)","(2 * lo_eps m + s / 2)","C46: this edit repairs the recorded defect; the refutation must fail")
m("MaterialM","mat_Da","=> 1%num end","=> 0%num end","C43/C15: the magnetic field keeps its old value")
m("MaterialM","mat_Db","=> dt end","=> (2 * dt)%num end","C43: magnetic update")
m("MaterialM","mat_Ca","KDebye _ => 1%num","KDebye _ => 0%num","C44: Debye equation")
m("MaterialM","drude_lorentz","(up_gamma p / 2)%num","(up_gamma p)","C49: damping of the combined medium")
m("MaterialM","drude_lorentz","Lorentz (dr_eps d)","Lorentz (lo_eps l)","C49: eps of the combined medium")
m("MaterialM","vacuum","Simple 1%num 1%num 0%num","Simple 1%num 1%num 1%num","C10/C20: the background is lossless")
# --- pml
m("PmlM","a_func","(t - 1)","(nofZ (p_th p) - t)","C21/C15: grading of a")
m("PmlM","sig_func","nofZ (p_th p) - t","t - 1","C21/C22: sigma grows towards the edge")
m("PmlM","k_func","1 + (p_kmax p - 1)","(p_kmax p - 1)","C15/C21: k = 1 for the default arguments")
m("PmlM","b_func","nexp (- p_dt p *","nexp (p_dt p *","C21: 0 < b < 1")
m("PmlM","c_func","(b_func p t - 1)","(1 - b_func p t)","C21: -1 < c <= 0")
m("PmlM","mk_pml_par","nofZ (3 + 1)","nofZ 3","C15: sigma_max")
m("PmlM","mk_pml_par","(nofQ 1 5)","(nofQ 2 5)","C15: a_max")
m("PmlM","mk_pml_coef","(p_th p + 1)","(p_th p)","C15: coefficient at the inner edge")
m("PmlM","coef_step","bhx <- aset (bh_x c) i (b_func p th)","bhx <- aset (bh_x c) i (b_func p ti)","C15/C24: half-cell offset of the magnetic coefficients")
m("PmlM","coef_step","chy <- aset (ch_y c) i (c_func p th)","chy <- aset (ch_y c) i (c_func p ti)","C15/C24: half-cell offset of the magnetic coefficients")
m("PmlM","set_scaling","x <- aconst (p_Nx p) (p_dx p * 1)%num","x <- aconst (p_Nx p) 1%num","C15: division by dx")
m("PmlM","scaling_step","(k_func p t * dx)","(k_func p t)","C15: division by dx inside the layer")
m("PmlM","Ey_body","E <- tset E i (je - j) (e - cb * q)","E <- tset E i (je - j) (e + cb * q)","C15: sign of the correction on the far side")
m("PmlM","Ey_body","h0 <- tget Hx i (j - 1)","h0 <- tget Hx i (j + 1)","C15: difference taken across the cell")
m("PmlM","Ey_body","p2 <- tset p2 i j (b * q2 +","p2 <- tset p2 i j (b * q +","C15/C21: the far memory keeps its own history")
m("PmlM","pml_Ey","for_up 1 (p_th p + 1)","for_up 1 (p_th p)","C15: inner edge of the layer")
m("PmlM","pml_Ey","for_up 1 (p_th p + 1)","for_up 1 (p_th p + 2)","C14: memory index out of range")
m("PmlM","Ex_body","aget (be_x c) i","aget (be_y c) i","C14/C15: the x layers use the x coefficients")
m("PmlM","Ex_body","cc * (h3 - h2) / p_dx p","cc * (h3 - h2)","C15: derivative")
m("PmlM","Hx_body","H <- tset H i (je - j - 1) (h - db * q)%num ;;","","C15/C24: the far side correction of Hx")
m("PmlM","Hx_body","aget (bh_y c) j","aget (be_y c) j","C15: magnetic coefficients")
m("PmlM","Hy_body","e1 <- tget E (i + 1) j","e1 <- tget E (i + 2) j","C15/C16: neighbour")
m("PmlM","pml_Hy","for_up 1 (p_th p)","for_up 1 (p_th p + 1)","C22: the interior is untouched")
m("PmlM","pml_update_E","(PmlPsi x1 x2 y1 y2 (Hxy1 s)","(PmlPsi y1 x2 x1 y2 (Hxy1 s)","C15: memories kept apart")
m("PmlM","pml_update_H","x1 x2 y1 y2), Hx, Hy)","x1 x2 (Hyx1 s) (Hyx2 s)), Hx, Hy)","C15: memories of Hy are stored")
# --- tfsf
m("TfsfM","mk_tfsf","snd (iv_dim iv) + 5","snd (iv_dim iv) + 4","C14/C19: incident line too short")
m("TfsfM","pulseE_body","(h0 - h1)","(h1 - h0)","C19: incident wave")
m("TfsfM","pulseH_body","aget E (k + 1)","aget E (k - 1)","C19: incident wave")
m("TfsfM","tfsf_pulse","E <- aset E 0 (q_l1 q)","E <- aset E 0 (q_l0 q)","C19/C25: absorbing end needs two steps of delay")
m("TfsfM","tfsf_pulse","E <- aset E 1 v","E <- aset E 2 v","C19: driven cell")
m("TfsfM","tfsf_pulse","for_up 0 (q_N q - 1) (pulseH_body E)","for_up 0 (q_N q) (pulseH_body E)","C14: incident line overrun")
m("TfsfM","tfsf_pulse","(q_t q + q_dt q)","(q_t q)","C19: incident time")
m("TfsfM","tfsf_updateD","h <- aget (q_H q) 2","h <- aget (q_H q) 3","C19: correction on the lower edge")
m("TfsfM","tfsf_updateD","(- half * h)","(half * h)","C19: correction on the upper edge")
m("TfsfM","tfsf_updateD","(q_ib q + 1)","(q_ib q)","C19: correction on the last column")
m("TfsfM","tfsf_updateH","(q_ja q - 1)","(q_ja q)","C19: correction of Hx below the box")
m("TfsfM","tfsf_updateH","(j - q_ja q + 3)","(j - q_ja q + 2)","C19: incident row")
m("TfsfM","tfsf_updateH","tadd Hy (q_ib q) j (half * e)%num","Ok Hy","C19: correction on the right side")
m("TfsfM","tfsf_reset","(z (q_H q))","(q_H q)","C25: reset clears the incident wave")
m("TfsfM","tfsf_reset","(q_dt q) 0%num","(q_dt q) (q_t q)","C25: reset restarts the incident clock")
m("TfsfM","tfsf_pulse","((e2 + prevE) / 2)%num","e2","C66: incident flux: E is averaged over two steps")
m("TfsfM","tfsf_flux","er * hr + ei * hi","er * hr - ei * hi","C66: incident flux is Re(E conj H)")
# --- polarization
m("PolarM","insert_polar","for_up 0 (pl_Ny p) (fun j c","for_up 1 (pl_Ny p) (fun j c","C44/C48: the pole strength covers the object")
m("PolarM","insert_polar","if inside pt","if negb (inside pt)","C48: pole strength only inside the object")
m("PolarM","reset_polar","(t3zero (pl_J p))","(pl_J p)","C25: reset clears the currents")
m("PolarM","reset_polar","(t3zero (pl_c p))","(pl_c p)","C25/C11: reset clears the strengths")
m("PolarM","debye_body","(e - cb * half * (1 + kp) * w)","(e + cb * half * (1 + kp) * w)","C44: Debye equation")
m("PolarM","debye_body","b / pl_dt p * (e - pe)","b * (e - pe)","C44: Debye equation")
m("PolarM","debye_update","for_up 0 (pl_n p)","for_up 1 (pl_n p)","C44: the first pole is updated")
m("PolarM","drude_body","(e + pe)","(e - pe)","C45: Drude equation")
m("PolarM","drude_update","for_up 0 (pl_Nx p)","for_up 1 (pl_Nx p)","C45: the first column is updated")
m("PolarM","lorentz_body","pJ <- t3set pJ i j k w","pJ <- t3set pJ i j k pw","C46: previous current is stored")
m("PolarM","lorentz_body","d / (2 * pl_dt p)","d / pl_dt p","C46: resonator drive")
m("PolarM","lorentz_body","be * pw)))%num","be * w)))%num","C46: two-step recurrence")
# --- field: materials
m("FieldM","clear_coefs","b <- tset (cCb c) i j (mat_Cb bg dt) ;;","let b := cCb c in","C10/C11: every coefficient is reset")
m("FieldM","clear_coefs","for_up 0 (g_Nx g)","for_up 1 (g_Nx g)","C10/C11: every column is reset")
m("FieldM","paint","for_up (snd (iv_a ib)) (snd (iv_b ib) + 1)","for_up (snd (iv_a ib)) (snd (iv_b ib))","C10: last row of the box is painted")
m("FieldM","paint","let ib := iclip g ib in","","C13: painting outside the grid")
m("FieldM","paint","d <- tset (cDa c) i j (mat_Da k dt)","d <- tset (cDa c) i j (mat_Db k dt)","C10: Da of the object")
m("FieldM","paint","(to_real g (i, j))","(to_real g (j, i))","C10: cells inside the object")
m("FieldM","add_polar","insert_polar p (vals m0 (g_dt g)) (obj_inside o)","insert_polar p (vals m (g_dt g)) (obj_inside o)","C50: the first material of a name wins")
m("FieldM","add_polar","Ok (sassign name (m0, p) P)","Ok P","C56/C50: second object of a material is inserted")
m("FieldM","reinsert_polar","None => Throw OutOfRange","None => Ok P","C51: equivalent in reachable states")
m("FieldM","ensure","Some x => Some x","Some x => Some E","C25/C56: adding an object keeps the previous field")
m("FieldM","ensure","None => Some E","None => None","C51: no empty previous-field buffer")
m("FieldM","insert_material","(set_ph_prev2E (ensure (ph_prev2E s) E)","(set_ph_prev2E (ph_prev2E s)","C51: no empty previous-field buffer")
m("FieldM","update_material_grid","c <- clear_coefs (ph_grid s) (ph_bg s) (ph_C s) ;;","let c := ph_C s in","C11: the old map is erased first")
m("FieldM","repaint_one","s <- paint_phys o s ;; reinsert_material o s","paint_phys o s","C11/C25: polarizations are re-inserted")
# --- field: step
m("FieldM","E_body","(x0 - x1) / ky","(x1 - x0) / ky","C15: curl")
m("FieldM","E_body","aget (kedy sc) j","aget (kedx sc) j","C14/C15: y scaling")
m("FieldM","E_body","tget Hy (i - 1) j","tget Hy (i + 1) j","C15/C16: neighbour")
m("FieldM","E_loop","for_up 1 (g_Ny g - 1)","for_up 1 (g_Ny g)","C15: boundary cells unchanged")
m("FieldM","E_loop","for_up 1 (g_Nx g - 1)","for_up 2 (g_Nx g - 1)","C15: every interior cell is updated")
m("FieldM","H_body","e1 <- tget E i (j + 1)","e1 <- tget E (i + 1) j","C15: curl")
m("FieldM","H_body","(da * h + db * (e2 - e0) / kx)","(da * h - db * (e2 - e0) / kx)","C15/C24: sign of Hy")
m("FieldM","H_loop","for_up 1 (g_Nx g - 1)","for_up 0 (g_Nx g - 1)","C15: boundary cells unchanged")
m("FieldM","step_clock","i32 (ph_step s + 1)","Ok (ph_step s + 1)","C26: the step counter overflows")
m("FieldM","step_clock","(ph_t s + g_dt (ph_grid s))","(ph_t s + g_dx (ph_grid s))","C26: t = n*dt")
m("FieldM","step_prev","set_ph_prev2E (ph_prevE s) s","set_ph_prev2E (Some (fEz (ph_F s))) s","C46: prev2E is one step older than prevE")
m("FieldM","step_prev","set_ph_prevE (Some (fEz (ph_F s))) s","s","C44/C45: prevE is refreshed")
m("FieldM","step_pmlE","(cCb (ph_C s))","(cCa (ph_C s))","C15: the correction uses Cb")
m("FieldM","step_polar","polar_all drude_update (ph_prevE s)","polar_all drude_update (ph_prev2E s)","C45/C51: Drude uses prevE")
m("FieldM","polar_all","'(r, E) <- polar_all f prev E P'","'(r, _) <- polar_all f prev E P'","C47/C48: every material acts")
m("FieldM","put_field","| Hx => Fields (fEz F) a (fHy F)","| Hx => Fields (fEz F) (fHx F) a","C29: the source acts on its component")
m("FieldM","line_cells","fst (is_dim is) + snd (is_dim is)","fst (is_dim is) + snd (is_dim is) + 1","C29: the last end is excluded")
m("FieldM","pulse_src","response (sr_tp r) (ph_t s)","response (sr_tp r) 0%num","C29: amplitude at the current time")
m("FieldM","pulse_src","(fun F =>\n    Fine (set_ph_F F s)))","(fun F =>\n    Fine s))","C29/C15: sources act")
m("FieldM","step_sources","oloop 0 (length (ph_srcs s))","oloop 1 (length (ph_srcs s))","C29/C15: the first source acts")
m("FieldM","update","on_ph step_pmlE >>=\n","","C15: layers absorb")
m("FieldM","update","on_ph step_H >>=\n  on_ph step_pmlH","on_ph step_pmlH >>=\n  on_ph step_H","C15: equivalent over the reals (both add into H), order only")
m("FieldM","update","start Fourier >>=\n  step_monitors >>=\n  stop Fourier >>=\n","start Fourier >>=\n  step_monitors >>=\n","C40: clocks stopped")
m("FieldM","update","step_tmons","step_monitors","C37: time monitors are asked at every update")
m("FieldM","update","on_ph_out step_sources >>=\n  stop Looping","stop Looping","C15/C29: sources act")
m("FieldM","update","on_ph step_tfsf_pulse >>=\n","","C19: incident wave advances")
# --- field: construction, adds, output
m("FieldM","mk_field","if String.eqb filename \"\" then UB NullDeref else","","C52: empty file name")
m("FieldM","grid_items","(\"dx\", PReal (g_dx g)); (\"dt\", PReal (g_dt g))","(\"dx\", PReal (g_dt g)); (\"dt\", PReal (g_dx g))","C64: file header: dx and dt")
m("FieldM","tm_sample","(fst (iv_dim iv) + 1)","(fst (iv_dim iv))","C58/C39: last column of the block")
m("FieldM","tm_sample","iscale i (is_tangent is)","iscale (i + 1) (is_tangent is)","C58/C39: samples start at the first end")
m("FieldM","tm_noted","(c :: tm_dsets m)","(tm_dsets m)","C39: second write appends")
m("FieldM","tm_ops","ONew (tm_path m // comp_str c) true v","ONew (tm_path m // comp_str c) false v","C39: the dataset can grow")
m("FieldM","expand","CH => [Hx; Hy]","CH => [Hx]","C39: both magnetic components")
m("FieldM","tm_ready","if b then","if negb b then","C37: cadence")
m("FieldM","tm_ready","(tm_fields m) e (tm_dsets m)","(tm_fields m) (tm_every m) (tm_dsets m)","C37: the counter is stored")
m("FieldM","write_field","h5_append (f_h5 s) p (tensor_pay a)","Ok (f_h5 s)","C39: second write appends a row")
m("FieldM","write_field",">>=\n  stop Hdf5","","C40: output clock is stopped")
m("FieldM","tensor_pay","list_prod (zrange 0 (rows a)) (zrange 0 (cols a))","list_prod (zrange 0 (cols a)) (zrange 0 (rows a))","C39: row-major order")
m("FieldM","writeH","write_field Hx s >>= write_field Hy","write_field Hx s >>= write_field Hx","C39: writeH writes Hx and Hy")
m("FieldM","obj_ops","(obj_path o // \"theta\") (o_dyn o) (PReal (o_theta o))","(obj_path o // \"theta\") (o_dyn o) (PReal 0%num)","C57: first row is the pose at add time")
m("FieldM","obj_ops","(o_dyn o) (vec_pay (o_pos o))","false (vec_pay (o_pos o))","C57: the trace of a dynamic object can grow")
m("FieldM","obj_ops","(obj_path o // \"material\") (mat_path (m_name (o_mat o)))","(obj_path o // \"material\") (obj_path o)","C50: an object refers to its material")
m("FieldM","register_mat","if str_in name (f_mats s) then Fine s\n  else","","C50: written exactly once")
m("FieldM","register_mat","set_f_mats (f_mats s ++ [name]) s","s","C50: written exactly once")
m("FieldM","mat_items","(\"mu\", PReal (sm_mu m)); (\"conduc\", PReal (sm_conduc m))","(\"mu\", PReal (sm_conduc m)); (\"conduc\", PReal (sm_mu m))","C64: material parameters")
m("FieldM","add_object","(ph_objs p ++ [o])","(o :: ph_objs p)","C11: order of the objects")
m("FieldM","add_object","on_ph (paint_phys o) >>=\n","","C10: the object is painted")
m("FieldM","add_object","register_mat o s >>=\n  on_ph (paint_phys o)","on_ph (paint_phys o) s","C50: the material is written before the object refers to it")
m("FieldM","add_source","(ph_srcs p ++ [r])","([r])","C17/C29: earlier sources are kept")
m("FieldM","add_monitor","prim s (mon_attach (ph_grid (f_ph s)) m) (fun m =>","prim s (Ok m) (fun m =>","C30/C58: set_F sizes the transforms")
m("FieldM","add_monitor","(f_mons s ++ [m])","[m]","C30: earlier monitors are kept")
m("FieldM","set_tfsf","let s := map_ph (set_ph_tfsf (Some q)) s in","","C19: the incident wave is installed")
m("FieldM","clear_fields_phys","(set_ph_step 0 (set_ph_t 0%num s))","(set_ph_t 0%num s)","C25: the step counter restarts")
m("FieldM","clear_fields_phys","(tzero (fHy F))","(fHy F)","C25: Hy is cleared")
m("FieldM","clear_fields_phys","option_map tfsf_reset (ph_tfsf s)","ph_tfsf s","C25/C19: the incident wave is reset")
m("FieldM","clear_fields_phys","(rs (ph_drude s))","(ph_drude s)","C25: Drude currents are reset")
m("FieldM","remove_monitors","set_f_mons [] s","s","C27/C31: monitors are removed")
m("FieldM","obj_move","(vadd (o_pos o) dr)","dr","C09: moves compose")
m("FieldM","obj_rotate","(o_theta o + d)","(o_theta o - d)","C09: rotations compose")
m("FieldM","on_obj","upd_nth i (h o)","upd_nth 0 (h o)","C09/C11: only the addressed object moves")
m("FieldM","write_current",";\n                  OMore (obj_path o // \"theta\") (PReal (o_theta o))","","C57: the angle is recorded")
m("FieldM","get_box_monitor","vol_pad (obj_box o) (nofZ buffer)","obj_box o","C67: the box monitor surrounds the object with a margin")
m("FieldM","write_tmon","Fine (set_f_h5 f (set_f_tmons (upd_nth i m (f_tmons s)) s))","Fine (set_f_h5 f s)","C39: explicit writes append")
m("FieldM","dft_items","map (fun '(n, e) => (n, PCplx (concat e))) (d_map d)","map (fun '(n, e) => (n, PCplx (concat (rev e)))) (d_map d)","C63: transforms in sample order")
m("FieldM","write_monitor_data","(mon_items m)","[]","C63: the accumulated transforms are written")
# --- clocks, cadence
m("ClockM","clock_start","if ticking c k then Throw RuntimeError else","","C41: a second start is an error")
m("ClockM","clock_stop","set_ticking c k false","c","C40: clocks stop")
m("ClockM","mk_every","Every (u2i n) 1","Every (u2i n) 0","C37: first record at update k")
m("ClockM","mk_every","(n =? 0)","false","C37: every(0) never writes")
m("ClockM","check_repeat","Every (ev_rep e) 1 (ev_never e)","Every (ev_rep e) 0 (ev_never e)","C37: the period is k")
m("ClockM","u2i","if z <? 2147483648 then z else z - 4294967296","z","C38: this edit repairs the recorded defect; the refutation must fail")
# --- transforms
m("DftM","phases","(ncos (2 * npi * f * t), nsin (2 * npi * f * t))","(nsin (2 * npi * f * t), ncos (2 * npi * f * t))","C30: cosine in the real part")
m("DftM","phases","ncos (2 * npi * f * t)","ncos (npi * f * t)","C30: angular frequency")
m("DftM","accum1","im + g * s","im - g * s","C30: sign of the imaginary part")
m("DftM","dft_update","if (d_t d =? tnew)%num then Ok (d, s) else","","C31: idempotent per time stamp")
m("DftM","dft_update","Ok (Dft tnew","Ok (Dft (d_t d)","C31: idempotent per time stamp")
m("DftM","dft_entries","'(r, s) <- dft_entries f ph s m'","'(r, _) <- dft_entries f ph s m'","C30/C53: the sampler state is threaded")
m("DftM","sinsert","| Eq => m","| Eq => (k, v) :: m'","std::map::insert keeps an existing entry: equivalent where the key is new")
m("DftM","dft_sub","sub_entry e e2","sub_entry e2 e","C32: difference")
m("DftM","dft_add","zero (Z.to_nat n)","zero (S (Z.to_nat n))","C58: number of samples")
m("DftM","shape_val","(t - T0) * sig * 2 * npi","(t - T0) * sig","C65: gaussian envelope")
m("DftM","shape_val","| Continuous f => nsin (2 * npi * f * t)%num","| Continuous f => ncos (2 * npi * f * t)%num","C65: a dark start: the continuous source starts at 0")
m("DftM","response","p' <- tp_update p v t ;; Ok (v, p')","Ok (v, p)","C65: the source spectrum is recorded")
# --- interpolation
m("InterpM","bilinear","x * y * f3 + (1 - x) * y * f4","x * y * f4 + (1 - x) * y * f3","C35: weights")
m("InterpM","bilinear","cx <- ofOption BadCast (nceil (fst ps))","cx <- ofOption BadCast (nfloor (fst ps))","C35: upper neighbour")
m("InterpM","interpolate","| Ez => Ok (vadd ps (0, 0)%num)","| Ez => Ok (vadd ps (vscale 2 (0, - dx / 2))%num)","C35: Ez lives on the nodes")
m("InterpM","interpolate","Hx => Ok (vadd ps (vscale 2 (0, - dx / 2))%num)","Hx => Ok (vadd ps (0, - half)%num)","C36: this edit repairs the recorded defect; the refutation must fail")
m("InterpM","on_grid","(j - 1)","(j + 1)","C59: node average")
m("InterpM","on_ygrid","d <- tget (fHy F) (i - 1) (j + 1)","d <- tget (fHy F) (i + 1) (j + 1)","C59: edge average")
m("InterpM","get_field","Hx => Ok (fHx F) | Hy => Ok (fHy F)","Hx => Ok (fHy F) | Hy => Ok (fHx F)","C29/C39: component")
# --- monitors
m("MonitorM","sample_E","(a + b) / 2","a","C30: time average of Ez")
m("MonitorM","sample_E","new ++ skipn n prevE","prevE","C30: the previous value is replaced")
m("MonitorM","surf_keys","then [\"Ez\"; \"Hy\"] else [\"Ez\"; \"Hx\"]","then [\"Ez\"; \"Hx\"] else [\"Ez\"; \"Hy\"]","C33: tangential component is recorded")
m("MonitorM","surf_pos","(vscale (g_dx g / 2)%num (s_tangent s))","(vscale (g_dx g) (s_tangent s))","C58: middle of the cell edge")
m("MonitorM","surf_attach","(repeat 0%num (Z.to_nat len)) d","(sm_prevE m) d","C30/C60: previous values allocated")
m("MonitorM","flux_row","er * hr + ei * hi","er * hi + ei * hr","C33: Re(E conj H)")
m("MonitorM","compute_flux","(da * nofZ (sgnZ sg))","da","C33: sign of the surface")
m("MonitorM","surf_flux","then nofZ (-1) else nofZ 1","then nofZ 1 else nofZ 1","C33: orientation of vertical surfaces")
m("MonitorM","tang_key","then \"Hy\"%string else \"Hx\"%string","then \"Hx\"%string else \"Hy\"%string","C33/C34: tangential component")
m("MonitorM","stress_force","cnorm hn - half * hsq - half * esq","cnorm hn - half * hsq + half * esq","C34: stress tensor")
m("MonitorM","stress_force","re_conj_mul ht hn","re_conj_mul ht ht","C34: stress tensor")
m("MonitorM","force_term","snd dF * fst nrm","snd dF * snd nrm","C34: Cartesian components")
m("MonitorM","torque_term","fst pos * snd c - snd pos * fst c","fst pos * snd c + snd pos * fst c","C34: cross product")
m("MonitorM","surf_torque","(nofZ i + half)","(nofZ i)","C34/C58: lever arm from the sample position")
m("MonitorM","ntff_factor","npi / 4 - k * r","npi / 4 + k * r","C54: far-field factor")
m("MonitorM","ntff_factor","8 * r * npi * k","8 * r * k","C54: far-field factor")
m("MonitorM","ntff_term","(jsgn * k)%num","jsgn","C54: integrand")
m("MonitorM","surf_ntff","(k * vdot p pp / r)","(k * vdot p pp)","C54: phase")
m("MonitorM","mk_box_mon","s2 <- get_surface v x_top","s2 <- get_surface v x_bottom","C33/C06: four different sides")
m("MonitorM","mk_box_mon","mk_surf_mon (name ++ \"_4\")","mk_surf_mon (name ++ \"_3\")","C55: side names are distinct")
m("MonitorM","box_flux","Ok (ladd S f)","Ok f","C33: sum over the sides")
m("MonitorM","box_torque","vol_center (bm_vol m)","v_a (bm_vol m)","C34: torque about the centre")
m("MonitorM","surf_sub","dft_sub (sm_dft m) (sm_dft o)","dft_sub (sm_dft o) (sm_dft m)","C32: difference")
m("MonitorM","box_sub","(combine (bm_sides m) (bm_sides o))","(combine (bm_sides m) (rev (bm_sides o)))","C32: side by side")
m("MonitorM","cyl_theta","(nofZ i + half)","(nofZ i)","C58/C30: sample angles")
m("MonitorM","cyl_attach","2 * npi * cs_radius","npi * cs_radius","C58/C33: number of samples on the circle")
m("MonitorM","cyl_sample","v <- hdot cs_tangent","v <- hdot cs_normal","C33/C30: Hp is tangential")
m("MonitorM","cyl_flux","Negative","Positive","C33: outward flux of a cylinder")
m("MonitorM","cyl_da","/ nofZ (cm_len m)","","C33/C34: area element")
m("MonitorM","cyl_torque","vsub (cs_position (cm_surf m) (cyl_theta (cm_len m) i)) (cs_center (cm_surf m))","cs_position (cm_surf m) (cyl_theta (cm_len m) i)","C34: torque about the axis")
m("MonitorM","vol_sample","(k / ny, k mod ny)","(k mod ny, k / ny)","C58: row-major block")
m("MonitorM","vol_attach","fst (iv_dim iv) + 1","fst (iv_dim iv)","C58: last column of the block")
m("MonitorM","pt_update","UB DanglingRef","Ok ([], tt)","C53: this edit repairs the recorded defect; the refutation must fail")
# --- file, names
m("H5M","h5_create","| Some _ => Throw H5Error","| Some _ => Ok f","creating a taken name fails (C50, C57)")
m("H5M","h5_append","(rows ++ [v])","(v :: rows)","C39/C57: rows in order")
m("H5M","h5_append","(rows ++ [v])","[v]","C39: earlier rows are kept")
m("H5M","h5_group","| Some HGroup => Ok f","| Some HGroup => Ok (f ++ [(p, HGroup)])","C50/C55: one object per path")
m("NamesM","create","v <- i32 (counter f k + 1)","v <- i32 (counter f k)","C55: the counter advances")
m("NamesM","create","set_counter f v k","set_counter FObject v k","C55: each family has its counter")
m("NamesM","prefix","FMaterial => \"material_\"","FMaterial => \"object_\"","C55: equivalent edit: names need only differ within one family")
# --- second round: definitions without an edit so far
m("VecM","vabs","nabs (snd v)","snd v","C05: tangent of a surface given from high to low")
m("VecM","cs_normal","(ncos theta, nsin theta)","(nsin theta, ncos theta)","C32/C33: outward normal of a circle")
m("GridM","to_grid_volume","Ok (mk_ivolume a b)","Ok (mk_ivolume b a)","C07: corners keep their order")
m("GridM","to_real_volume","(to_real g (iv_a v)) (to_real g (iv_b v))","(to_real g (iv_b v)) (to_real g (iv_a v))","C07: corners keep their order")
m("MaterialM","drude_kappa1","(1 - up_gamma p * dt / 2)","(1 + up_gamma p * dt / 2)","C45: Drude law")
m("MaterialM","lorentz_Cb","s / 2","s","C46: Lorentz law")
m("MaterialM","mat_Cb","| KDebye m => debye_Cb m dt","| KDebye m => dt","C44: Debye law")
m("PmlM","mk_pml_psi","tconst (p_th p + 1) (p_Ny p) 0%num","tconst (p_th p + 1) (p_Ny p) 1%num","C18: a dark field stays dark")
m("PmlM","pml_Ex","for_up 1 (p_th p + 1)","for_up 1 (p_th p + 2)","C13: within the arrays")
m("PmlM","pml_Hx","for_up 1 (p_th p)","for_up 0 (p_th p)","C24: axes alike")
m("PmlM","pml_Hx","for_up 1 (p_Nx p - 1)","for_up 1 (p_Nx p - 2)","C24: axes alike")
m("DftM","accum","(fun '(row, g) => accum1 ph row g)","(fun '(row, g) => row)","C30: transforms accumulate")
m("DftM","sub_row","(a - c, b - d)","(a - c, b + d)","C32: difference of monitors")
m("DftM","sub_entry","if Nat.eqb (length e1) (length e2)","if Nat.leb (length e1) (length e2)","C32: monitors of different size are refused")
m("DftM","tp_update","repeat v n","repeat 0%num n","C65: source spectrum")
m("TfsfM","tfsf_sample","if String.eqb name \"E\" then Ok (repeat E n, tt)","if String.eqb name \"E\" then Ok (repeat H n, tt)","C66: incident flux")
m("PolarM","lorentz_update","let alpha := lorentz_alpha m (pl_dt p)","let alpha := lorentz_beta m (pl_dt p)","C46: Lorentz law")
m("PolarM","with_JJ","J (pl_c p) pJ","pJ (pl_c p) J","C46: Lorentz law")
m("PolarM","mk_polar","t3const (g_Nx g) (g_Ny g) n 0%num","t3const (g_Ny g) (g_Nx g) n 0%num","C13: within the arrays")
m("MonitorM","comp_name","String.eqb s \"Hx\" then Some Hx","String.eqb s \"Hx\" then Some Hy","C30: recorded component")
m("MonitorM","norm_key","then \"Hx\"%string else \"Hy\"%string","then \"Hy\"%string else \"Hx\"%string","C34: stress tensor")
m("MonitorM","cnorm","fst z * fst z + snd z * snd z","fst z * fst z - snd z * snd z","C34: stress tensor")
m("MonitorM","re_conj_mul","(- snd z) * snd w","snd z * snd w","C33/C34: Re(conj z w)")
m("MonitorM","compute_force","vadd f (force_term","vsub f (force_term","C34: force")
m("MonitorM","compute_torque","f + torque_term","f - torque_term","C34: torque")
m("MonitorM","surf_force","(fun _ => vabs (s_normal s))","(fun _ => s_normal s)","C34: force on a side given from high to low")
m("MonitorM","cmul","fst z * snd w + snd z * fst w","fst z * snd w - snd z * fst w","C69: far field")
m("MonitorM","cis","(ncos x, nsin x)","(nsin x, ncos x)","C69: far field")
m("MonitorM","box_update","mapM (surf_update g F t) (bm_sides m)","mapM (surf_update g F t) (rev (bm_sides m))","C32/C33: the sides keep their order")
m("MonitorM","box_force","vadd x y","vsub x y","C34: force of a box")
m("MonitorM","box_ntff","(vol_center (bm_vol m))","(v_a (bm_vol m))","C70: far field of a box")
m("MonitorM","cyl_ntff","vsub pc (cs_center s)","pc","C69: far field of a circle")
m("MonitorM","cyl_ntff","(k * vdot p pp / r)%num","(k * vdot p pp)%num","C69: far field of a circle")
m("MonitorM","cyl_force","(cyl_da m) Positive","(cyl_da m) Negative","C34: force of a circle")
m("MonitorM","cyl_update","(cm_len m) pe d","(cm_len m) (cm_prevE m) d","C31: E at the time of H")
m("MonitorM","vol_update","(vm_ny m) d","(vm_ny m) (vm_dft m)","C30: transforms accumulate")
m("MonitorM","cart_keys","DHx => [\"Hx\"]","DHx => [\"Hy\"]","C58: recorded components")
m("MonitorM","mon_update","| MVol m => x <- vol_update g F t m ;; Ok (MVol x)","| MVol m => Ok (MVol m)","C30: volume monitors")
m("ClockM","mk_clocks","Clocks false false false true","Clocks false false false false","C40: clocks")
m("TimerM","watch_end","(w_sum w + (now - w_from w))","(now - w_from w)","C72: times add up")
m("TimerM","watch_end","(w_from w) false) else","(w_from w) true) else","C72: no overlap")
m("TimerM","watch_begin","if w_on w then Throw RuntimeError else Ok (Watch (w_sum w) now true)","Ok (Watch (w_sum w) now true)","C72: no overlap after exceptions")
m("TimerM","time_report","d Self - d Hdf5 - d Fourier - d Looping","d Self - d Hdf5 - d Fourier","C72: the parts add up to the total")
m("TimerM","time_report","(\"HDF5 Output\", d Hdf5)","(\"HDF5 Output\", d Fourier)","C72: the right line")
m("TimerM","update_phases","Tock Looping;\n   Tick Fourier; Work step_monitors; Tock Fourier;","Tick Fourier; Work step_monitors; Tock Fourier; Tock Looping;","C72: no overlap")
m("TimerM","update_phases","Work (on_ph step_H); Work (on_ph step_pmlH)","Work (on_ph step_H)","C72: keeping the time does not change the program")
m("TimerM","phases","Do WriteH => write_phases Hx ++ write_phases Hy","Do WriteH => write_phases Hy ++ write_phases Hx","C72: keeping the time does not change the program")
m("TimerM","end_timed","watch_end (now (td_n x)) (td_w x Self)","watch_end (now 0) (td_w x Self)","C72: total")
m("H5M","h5_op","if h5_exists f q then h5_create f p false (PRef q) else Throw H5Error","h5_create f p false (PRef q)","C55/C63: reference to the material group")
m("H5M","h5_left","Ok f' => h5_left f' l' | _ => f","Ok f' => h5_left f' l' | _ => h5_left f l'","C73: nothing is written after the failed dataset")
m("H5M","h5_left","| _ => f end","| _ => [] end","C73: what is written stays")
m("H5M","news","ONew (g // n) false v","ONew (g // n) true v","C64: fixed size")
m("NamesM","set_counter","FSource => Counters (k_obj k) (k_mat k) v (k_mon k) (k_tmon k)","FSource => Counters (k_obj k) (k_mat k) (k_src k) v (k_tmon k)","C55: names are distinct")
m("NamesM","creations","'(ns, k) <- creations l' k","'(ns, _) <- creations l' k","C55: counters carry on")
m("FieldM","upd_nth","x :: l', S n' => x :: upd_nth n' v l'","x :: l', S n' => v :: upd_nth n' v l'","C12: other objects stay")
m("FieldM","obj_box","place_box (o_geom o) (o_pos o) (o_theta o)","place_box (o_geom o) (o_pos o) 0%num","C08: turned objects")
m("FieldM","reinsert_material","reinsert_polar drude_beta (ph_grid s) (ph_drude s) name o","Ok (ph_drude s)","C11: rebuild")
m("FieldM","step_E","(fHx (ph_F s)) (fHy (ph_F s)) (fEz (ph_F s))","(fHy (ph_F s)) (fHx (ph_F s)) (fEz (ph_F s))","C16: Yee step")
m("FieldM","step_pmlH","(set_ph_pml b s)","s","C23: layer memory")
m("FieldM","step_tfsfH","Ok (set_H hx hy s)","Ok (set_H hy hx s)","C19: one plane wave")
m("FieldM","step_tfsf_pulse","Ok (set_ph_tfsf (Some q) s)","Ok s","C19: one plane wave")
m("FieldM","field_add","tadd a (fst p) (snd p) v","tset a (fst p) (snd p) v","C17/C52: soft source")
m("FieldM","on_ph_out","Raise e (set_f_ph p s)","Raise e s","C41: frame of an exception")
m("FieldM","half_written","set_f_h5 (h5_left (f_h5 s) ops) s","s","C73: what is written stays")
m("FieldM","tm_half","(upd_nth i (snd r) (f_tmons s))","(f_tmons s)","C39/C63: the datasets made are known")
m("FieldM","mk_phys","Phys g 0 0%num","Phys g 1 0%num","C26: step counter starts at 0")
m("FieldM","mk_phys","c [] [] vacuum b sc None None None","c [] [] vacuum b sc None (Some z) None","C25/C48: no memory of an earlier field")
m("FieldM","obj_root","then \"dynamic_objects\"%string else \"objects\"%string","then \"objects\"%string else \"dynamic_objects\"%string","C64: path of objects")
m("FieldM","geom_items","(\"rx\", PReal rx); (\"ry\", PReal ry)","(\"rx\", PReal ry); (\"ry\", PReal rx)","C64: parameters of shapes")
m("FieldM","surf_items","(\"p1\", vec_pay (s_a s)); (\"p2\", vec_pay (s_b s))","(\"p1\", vec_pay (s_b s)); (\"p2\", vec_pay (s_a s))","C64: parameters of lines")
m("FieldM","shape_items","(\"T0\", PReal T0); (\"sig\", PReal sig)","(\"T0\", PReal sig); (\"sig\", PReal T0)","C64: parameters of pulses")
m("FieldM","mon_ops","[(\"position\"%string, vec_pay (pm_pos m))]","[]","C64: parameters of monitors")
m("FieldM","tfsf_ops","news (\"sources\" // \"tfsf\") (vol_items (q_vol q)) ++","","C64: corners of the region")
m("FieldM","mon_items","| MVol m => dft_items (vm_dft m)","| MVol m => []","C64: data of volume monitors")
m("FieldM","clear_materials","(ph_bg p) (ph_C p) ;; Ok (set_ph_C c p)","vacuum (ph_C p) ;; Ok (set_ph_C c p)","C10: equivalent: the background is always vacuum")
m("FieldM","obj_set_theta","(o_pos o) t","(o_pos o) (o_theta o + t)%num","C09: set_theta overrides")
m("FieldM","exec","| Move i dr => on_obj i (obj_move dr) s","| Move i dr => on_obj i (obj_set_pos dr) s","C09: moves add up")
m("FieldM","exec","| WriteE => writeE s","| WriteE => Fine s","C39: write E")
m("FieldM","add_object","set_ph_objs (ph_objs p ++ [o]) p","set_ph_objs (o :: ph_objs p) p","C11: later objects on top after a rebuild")
m("FieldM","add_object","  on_ph (paint_phys o) >>=\n  on_ph (insert_material o) >>=\n","  on_ph (insert_material o) >>=\n","C10: painting")
m("FieldM","set_tfsf","let s := map_ph (set_ph_tfsf (Some q)) s in","","C19: set_tfsf sets the source")
m("FieldM","register_mat","set_f_mats (f_mats s ++ [name]) s","s","C50: a material is written once")
m("FieldM","write_current","if o_dyn o then","if negb (o_dyn o) then","C12/C63: only movable objects")
m("FieldM","write_current","(vec_pay (o_pos o));\n                  OMore (obj_path o // \"theta\") (PReal (o_theta o))","(vec_pay (o_pos o))","C63: position and angle are appended")
m("FieldM","get_box_monitor","(nofZ buffer)","(nofZ (- buffer))","C67: the box surrounds the object")
m("ReportM","linspaced","if i =? n - 1 then hi else","if i =? n then hi else","C70: circle of points")
m("ReportM","linspaced","nofZ i * ((hi - lo) / nofZ (n - 1))","nofZ i * ((hi - lo) / nofZ n)","C70: circle of points")
m("ReportM","ntff_circle","(vadd (vscale radius (ncos th, nsin th)) center)","(vscale radius (ncos th, nsin th))","C70: circle about the centre")
m("ReportM","mon_report","| MBox m, QFlux => S <- box_flux dx m","| MBox m, QFlux => S <- box_torque dx m","C64: results")
m("ReportM","force_pay","map fst F ++ map snd F","map snd F ++ map fst F","C64: layout of forces")
m("ReportM","report_name","QTorque _ => \"torque\"","QTorque _ => \"force\"","C50/C64: results have their own names")
m("ReportM","write_report","(dir // name) false v","(dir // name) true v","C64: results have fixed size")
m("ReportM","h5_open","Some HGroup => Ok f | _ => Throw H5Error","_ => Ok f","C64: results go into an existing group")
m("ReportM","report_tfsf","\"flux\" (PReals S)","\"flux\" (PReals (rev S))","C64/C66: incident flux in order")
# --- third batch: definitions without a wrong program so far
m("ClockM","ticking","Hdf5 => k_hdf5 c","Hdf5 => k_looping c","C40/C41: each stop-watch has its own flag")
m("ClockM","set_ticking","| Fourier => Clocks b (k_looping c)","| Fourier => Clocks (k_fourier c) b","C40: each stop-watch has its own flag")
m("ClockM","set_ticking","| Hdf5 => Clocks (k_fourier c) (k_looping c) b","| Hdf5 => Clocks (k_fourier c) (k_looping c) (k_hdf5 c)","C41: a rejected write leaves the stop-watch running")
m("DftM","slookup","if String.eqb k k' then Some v else","if String.eqb k k' then None else","C51: no history misses a map entry")
m("DftM","sassign","(k', v) :: m' else","(k', v') :: m' else","C30: the transforms are kept")
m("DftM","mk_dft","Dft 0%num freq []","Dft 1%num freq []","C31: the first stamp is not 1")
m("DftM","mk_dft","freq []","[] []","C30: one row per frequency")
m("DftM","dft_get","slookup name","slookup (name ++ \"_\")","C33: flux reads the recorded transforms")
m("DftM","tp_with_freq","dft_add (mk_dft freq) \"dft\" 1","dft_add (mk_dft freq) \"dft\" 2","C65: one sample per step")
m("DftM","tp_with_freq","(Some d)","None","C65/C66: the profile records its spectrum")
m("FieldM","obind","| Raise e s => Raise e s","| Raise e s => k s","C41/C73: an exception ends the call")
m("FieldM","prim","| Throw e => Raise e s","| Throw e => Undef NullDeref","C41: a rejected call raises")
m("FieldM","oloop","body lo s >>= oloop (Datatypes.S lo) n' body","body lo s >>= oloop lo n' body","C29: every source fires")
m("FieldM","obj_inside","(o_theta o) p","0%num p","C09: the painted cells turn with the object")
m("FieldM","set_ph_step","(ph_grid s) v (ph_t s)","(ph_grid s) (ph_step s) (ph_t s)","C26: the step counter counts")
m("FieldM","set_ph_t","(ph_step s) v (ph_F s)","(ph_step s) (ph_t s) (ph_F s)","C26: the time advances")
m("FieldM","set_ph_C","(ph_F s) v (ph_objs s)","(ph_F s) (ph_C s) (ph_objs s)","C10: painting sets the coefficients")
m("FieldM","set_ph_objs","(ph_C s) v (ph_srcs s)","(ph_C s) (v ++ ph_objs s) (ph_srcs s)","C11: the object list holds each object once")
m("FieldM","set_ph_pml","(ph_bg s) v (ph_sc s)","(ph_bg s) (ph_pml s) (ph_sc s)","C15: the PML memories advance")
m("FieldM","set_ph_prevE","v (ph_prev2E s)","v v","C46: prev2E is two steps old")
m("FieldM","set_ph_prev2E","(ph_prevE s) v (ph_tfsf s)","v (ph_prev2E s) (ph_tfsf s)","C46: prev2E is two steps old")
m("FieldM","set_ph_drude","(ph_debye s) v (ph_lorentz s)","(ph_debye s) (ph_drude s) (ph_lorentz s)","C45: the Drude currents advance")
m("FieldM","set_ph_tfsf","(ph_prev2E s) v (ph_debye s)","(ph_prev2E s) (ph_tfsf s) (ph_debye s)","C19: the incident wave advances")
m("FieldM","set_f_mons","(f_ph s) v (f_tmons s)","(f_ph s) (f_mons s) (f_tmons s)","C30: monitors record")
m("FieldM","set_f_h5","(f_mats s) v (f_clk s)","(f_mats s) (f_h5 s) (f_clk s)","C63/C64: the file records the program")
m("FieldM","set_f_clk","(f_h5 s) v","(f_h5 s) (f_clk s)","C40/C41: stop-watches")
m("FieldM","set_f_mats","(f_tmons s) v (f_h5 s)","(f_tmons s) (f_mats s) (f_h5 s)","C50: a material is written once")
m("FieldM","np_debye","length (db_poles m)","length (db_poles m) + 1","C44: one current per pole")
m("FieldM","np_lorentz","length (lo_poles m)","1","C46/C47: one current per pole")
m("FieldM","paint_phys","Ok (set_ph_C c s)","Ok s","C10: the coefficients are stored; only the inside of the object is painted")
m("FieldM","set_E","Fields E (fHx (ph_F s)) (fHy (ph_F s))","Fields E (fHy (ph_F s)) (fHx (ph_F s))","C15: updating Ez leaves Hx and Hy")
m("FieldM","set_H","Hx Hy) s","Hy Hx) s","C15: Hx and Hy are not exchanged")
m("FieldM","step_tfsfD","| None => Ok s","| None => Ok (set_ph_t 0%num s)","C26: without a TFSF source nothing changes")
m("FieldM","pulse_field","field_add F c v ip","field_add F Ez v ip","C29: a source drives its component")
m("FieldM","pulse_field","| SPoint p => ip <- to_grid g p ;; field_add F c v ip","| SPoint p => ip <- to_grid g p ;; field_add F c v (snd ip, fst ip)","C29: a source drives its cell")
m("FieldM","step_H","(fHx (ph_F s)) (fHy (ph_F s)) ;;","(fHy (ph_F s)) (fHx (ph_F s)) ;;","C15: Hx and Hy are not exchanged")
m("FieldM","on_ph","Fine (set_f_ph p s)","Fine s","C15: a step changes the fields")
m("FieldM","start","clock_start k","clock_stop k","C40: start starts")
m("FieldM","stop","clock_stop k","clock_start k","C40: stop stops")
m("FieldM","step_monitors","(ph_t p)) (f_mons s)","(ph_t p)) (rev (f_mons s))","C30: monitors keep their order")
m("FieldM","step_monitors","(ph_F p) (ph_t p)","(ph_F p) 0%num","C30: the sum uses the current time")
m("FieldM","comp_str","Hy => \"Hy\"","Hy => \"Hx\"","C39: Hx and Hy go to different datasets")
m("FieldM","comp_eqb","Hx, Hx | Hy, Hy","Hx, Hx | Hx, Hy | Hy, Hy","C39: each component has its own dataset")
m("FieldM","tm_path","\"fields\" // tm_name m","\"fields\"","C63/C64: the monitor's group carries its name")
m("FieldM","tm_write1","Ok (f, tm_noted m c)","Ok (f, m)","C39: the second row is appended")
m("FieldM","tm_write","expand (tm_fields m)","[tm_fields m]","C39: E, H and all are split into components")
m("FieldM","tm_left","tm_left g F f' m' l'","tm_left g F f' m l'","C41/C73: components written before an exception are noted")
m("FieldM","step_tmons","oloop 0 (length (f_tmons s))","oloop 1 (length (f_tmons s))","C37/C39: the first time monitor writes")
m("FieldM","vec_pay","PReals [fst v; snd v]","PReals [snd v; fst v]","C64: the file records the program")
m("FieldM","mat_path","\"materials\" // name","\"objects\" // name","C64: the file records the program")
m("FieldM","mat_ops","news (mat_path (m_name m)) (mat_items (m_kind m))","[]","C64: the file records the material's constants")
m("FieldM","obj_path","obj_root o // geom_group (o_geom o) // o_name o","obj_root o // geom_group (o_geom o)","C64: the object's group carries its name")
m("FieldM","obj_groups","[obj_root o; (obj_root o // geom_group (o_geom o))%string; obj_path o]","[obj_root o; obj_path o]","C64/C73: the groups written")
m("FieldM","str_in","existsb (String.eqb x) l","negb (existsb (String.eqb x) l)","C50: a material is written once")
m("FieldM","vol_items","(\"p2\", vec_pay (v_b v))","(\"p2\", vec_pay (v_a v))","C64: the file records the region")
m("FieldM","src_sub","SLine _ => \"line\"","SLine _ => \"point\"","C64: line sources have their own group")
m("FieldM","src_path","src_sub (sr_kind r) // sr_name r","src_sub (sr_kind r)","C64: the source's group carries its name")
m("FieldM","src_ops","news (src_path r) (shape_items (tp_shape (sr_tp r)))","[]","C64: the file records the waveform")
m("FieldM","mon_groups","\"monitors\" // sub // name","\"monitors\" // name","C64: the groups written")
m("FieldM","mon_dir","\"monitors\" // sub // name","\"monitors\" // sub","C63: records have different names")
m("FieldM","mon1_ops","PReals freq","PReals []","C64: the file records the frequencies")
m("FieldM","surf_mon_ops","\"surface_monitor\"","\"box_monitor\"","C64: sides are under surface_monitor")
m("FieldM","tm_items","TPoint p => [(\"position\"%string, vec_pay p)]","TPoint p => []","C64: the file records the position")
m("FieldM","tm_add_ops","news (tm_path m) (tm_items (tm_shape_ m))","[]","C64: the file records the region")
m("FieldM","add_tmon","f_tmons s ++ [m]","m :: f_tmons s","C39/C64: time monitors keep their order")
m("FieldM","writeE","write_field Ez","write_field Hx","C39: writeE writes Ez")
m("FieldM","mon_sub_name","(\"cylinder_monitor\", cm_name m)","(\"surface_monitor\", cm_name m)","C64/C63: cylinders have their own group")
m("FieldM","clear_fields","Fine (map_ph clear_fields_phys s)","Fine (set_f_mons [] (map_ph clear_fields_phys s))","C25/C28: clear_fields keeps the monitors")
m("FieldM","obj_set_pos","(o_mat o) p (o_theta o)","(o_mat o) (vadd (o_pos o) p) (o_theta o)","C09: set_position overrides")
m("FieldM","run","exec c s >>= run l'","run l' s >>= exec c","C26/C39: calls run in order")
m("FieldM","run_catch","Fine s' | Raise _ s' => run_catch l' s'","Fine s' => run_catch l' s' | Raise _ _ => run_catch l' s","C63/C74: an exception leaves what was done before it")
m("GeometryM","geom_group","Ellipse _ _ => \"ellipses\"","Ellipse _ _ => \"cylinders\"","C64: ellipses have their own group")
m("GridM","to_real_surface","(is_sign s)","Positive","C05: the sign is carried over")
m("GridM","clip","if (g_Ly g <? snd (v_b v))%num then g_Ly g","if (g_Lx g <? snd (v_b v))%num then g_Lx g","C12: no in-grid point is lost")
m("H5M","path_cat","(g ++ \"/\" ++ n)","(g ++ n)","C63: different records have different paths")
m("H5M","h5_exists","None => false | Some _ => true","None => true | Some _ => false","C39: the first write creates the dataset")
m("H5M","h5_creates","(g // n) false v","(g // n) true v","C64: the header is not extendable")
m("H5M","h5_groups","foldM h5_group f l","Ok f","C64: the groups exist")
m("H5M","h5_ops","foldM h5_op f l","foldM h5_op f (rev l)","C73: records are written in order")
m("InterpM","tat","tget a (fst p) (snd p)","tget a (snd p) (fst p)","C39: samples are taken at the cell")
m("InterpM","on_xgrid","b <- tget (fEz F) (i + 1) j","b <- tget (fEz F) (i - 1) j","C59: average at the middle of the x edge")
m("MaterialM","debye_beta","(db_poles m)","(rev (db_poles m))","C47/C44: each pole has its coefficient")
m("MaterialM","debye_kappa","(db_poles m)","(rev (db_poles m))","C47/C44: each pole has its coefficient")
m("MaterialM","drude_kappa","(dr_poles m)","(tl (dr_poles m))","C45/C51: one coefficient per pole")
m("MaterialM","lorentz_alpha","(lo_poles m)","(rev (lo_poles m))","C46/C47: each pole has its coefficient")
m("MaterialM","lorentz_beta","map (lorentz_beta1 dt)","map (lorentz_alpha1 dt)","C46: the resonator equation")
m("MaterialM","lorentz_delta","map (lorentz_delta1 dt)","map (fun _ => 0%num)","C46: the resonator equation")
m("MaterialM","small","nofQ 1 100000000000000000000","0%num","C49: the Drude poles become Lorentz poles")
m("MonitorM","for_samples","zseq 0 n","zseq 1 n","C30: samples start at 0")
m("MonitorM","pget","nth (Z.to_nat i) l 0%num","0%num","C30: the average uses the previous sample")
m("MonitorM","mk_surf_mon","(mk_dft freq)","(mk_dft [])","C30: one row per frequency")
m("MonitorM","surf_sample","| Some c => v <-","| Some c => let c := Hx in v <-","C30: each component is sampled")
m("MonitorM","surf_update","(sm_len m) pe d","(sm_len m) (sm_prevE m) d","C30: the previous sample is kept")
m("MonitorM","re_mul_conj","snd z * (- snd w)","snd z * snd w","C34: stress tensor")
m("MonitorM","zip3","combine a (combine b c)","combine a (combine b (rev c))","C34: samples are paired")
m("MonitorM","cadd","snd z + snd w","snd z - snd w","C54: the far field is a sum")
m("MonitorM","cscale","c * snd z","snd z","C54: linear in the coefficients")
m("MonitorM","box_attach","mapM (surf_attach g) (bm_sides m)","mapM (surf_attach g) (rev (bm_sides m))","C33: the sides keep their order")
m("MonitorM","ladd","x + y","x - y","C33: the flux of a box is the sum of its sides")
m("MonitorM","mk_cyl_mon","name s all 0","name s (negb all) 0","C30/C34: DFT::all records the radial component")
m("MonitorM","cyl_sub","(cm_dft m) (cm_dft o)","(cm_dft o) (cm_dft m)","C32: subtraction")
m("MonitorM","mk_vol_mon","name v k 0","name v DEz 0","C30: the chosen components are recorded")
m("MonitorM","pt_attach","dft_add d k 1","dft_add d k 0","C53: a point monitor has one sample")
m("MonitorM","mon_attach","| MVol m => x <- vol_attach g m ;; Ok (MVol x)","| MVol m => Ok (MVol m)","C30: the arrays are made")
m("NamesM","counters0","Counters 0 0 0 0 0","Counters (-1) 0 0 0 0","C55: names start at 0")
m("NamesM","counter","FSource => k_src k","FSource => k_mat k","C55: sources have their own counter")
m("NamesM","to_string","Z.to_int z","Z.to_int (Z.abs (z - 1))","C55: different numbers have different names")
m("PmlM","mk_pml","mk_pml_coef","fun p => mk_pml_coef (PmlPar (p_Ny p) (p_Nx p) (p_dx p) (p_dt p) (p_th p) (p_m p) (p_ma p) (p_kmax p) (p_smax p) (p_amax p))","C14: the arrays have the grid's size")
m("PolarM","lget","nth (Z.to_nat k) l 0%num","nth 0 l 0%num","C47: each pole has its coefficient")
m("PolarM","with_c","(pl_J p) c (pl_pJ p)","(pl_J p) (pl_c p) (pl_pJ p)","C44: the object's cells get the strength")
m("PolarM","with_J","(pl_n p) J (pl_c p)","(pl_n p) (pl_J p) (pl_c p)","C44: the current advances")
m("ReportM","report","(report_name q) v","\"flux\" v","C64: results have their names")
m("ReportM","write_monitor","start Hdf5 s >>= stop Hdf5","start Hdf5 s","C40: write_monitor stops its stop-watch")
m("ReportM","exec_call","| ReportTfsf => report_tfsf s","| ReportTfsf => Fine s","C62/C64: the incident flux is written")
m("ReportM","exec_main","exec_call c s >>= exec_main l'","exec_main l' s >>= exec_call c","C62: statements run in order")
m("ShippedM","shipped_grid","2%num p","0%num p","C62: the programs run")
m("ShippedM","around","(nofZ l) (nofZ l)","(nofZ 0) (nofZ l)","C62: the programs run")
m("ShippedM","simple_main","\"m2\" (around 95 95 20)","\"m1\" (around 95 95 20)","C62: the programs run (monitor names differ)")
m("ShippedM","simple_main","around 95 95 20","around 115 95 20","C62: the programs run (the monitor is in the grid)")
m("ShippedM","simple_main","[Report 0 QFlux; Report 1 QFlux]","[Report 0 QFlux; Report 0 QFlux]","C62: the programs run (a result is written once)")
m("ShippedM","emag_main","point 30 30","point 130 30","C62: the programs run (the source is in the grid)")
m("ShippedM","rod","Cylinder (nofZ 20)","Cylinder (nofZ 80)","C62: the programs run (the rod is in the grid)")
m("ShippedM","circle","false (frequencies 200)","false []","C62: the programs run")
m("ShippedM","mie_main","circle \"absorb\" 25","circle \"scat\" 25","C62: the programs run (monitor names differ)")
m("ShippedM","mie_main","tp_with_freq (pulse 100 80) (frequencies 200)","Ok (TProfile (pulse 100 80) None)","C62: the programs run (the incident flux needs a spectrum)")
m("ShippedM","mie_drude_main","around 60 60 75","around 60 60 125","C62: the programs run (the box is in the grid)")
m("ShippedM","force_main","Report 0 QForce","Report 0 (QCircle 1%num (-1))","C62: the programs run")
m("ShippedM","mie_simple_main","Do (AddMonitor (circle \"scat\" 50))","Do (AddMonitor (circle \"scat\" 65))","C62: the programs run (the circle is in the grid)")
m("TfsfM","tadd","(x + v)%num","v","C19/C29: sources are added")
m("TimerM","new_watch","Watch 0%num 0%num false","Watch 0%num 0%num true","C72: a new stop-watch is at rest")
m("TimerM","put_watch","if clock_eqb j k then w else ws j","w","C72: each stop-watch has its own sum")
m("TimerM","clock_eqb","Hdf5, Hdf5 | Self, Self","Hdf5, Hdf5 | Hdf5, Self | Self, Self","C72: each stop-watch has its own sum")
m("TimerM","new_watches","put_watch Self w","put_watch Looping w","C72: the total runs from construction")
m("TimerM","write_phases","[Tick Hdf5; Work (write_body c); Tock Hdf5]","[Work (write_body c); Tick Hdf5; Tock Hdf5]","C72: output is counted as output")
m("TimerM","write_body","| _ => Raise InvalidArgument s","| _ => Fine s","C72: the timed program is the program")
m("TimerM","play1","| Raise e s => Raise e (Timed s (td_w x) (td_n x))","| Raise e s => Raise e x","C72: the timed program is the program")
m("TimerM","play","play1 p x >>= play l'","play l' x >>= play1 p","C72: phases run in order")
m("TimerM","timed_main","play (phases c) x >>= timed_main l'","play (phases c) x","C72: all calls are timed")
m("TimerM","caught_main","Fine y | Raise _ y => caught_main l' y","Fine y => caught_main l' y | Raise _ y => Fine y","C72: the program goes on after an exception")
m("TimerM","begin_timed","Timed s ws 1","Timed s ws 0","C72: the clock is read once at construction")
m("VecM","sgnZ","Negative => -1","Negative => 1","C05/C33: the sign of a surface")
m("VecM","vadd","snd u + snd v","snd u + fst v","C07/C09: vector arithmetic")
m("VecM","vsub","snd u - snd v","snd v - snd u","C07: vector arithmetic")
m("VecM","vscale","c * snd v","snd v","C58: sample positions")
m("VecM","vdivs","snd v / c","snd v","C05/C07: unit tangent, centre")
m("VecM","vneg","(- fst v, - snd v)","(- fst v, snd v)","C08: the box of a block")
m("VecM","vdot","fst u * fst v + snd u * snd v","fst u * fst v - snd u * snd v","C08/C09: distances")
m("VecM","vnorm","nsqrt (vsqnorm v)","vsqnorm v","C05: unit tangent")
m("VecM","iadd","snd u + snd v","snd u - snd v","C29/C58: cells along a line")
m("VecM","iscale","(c * fst v, c * snd v)","(c * fst v, snd v)","C29/C58: cells along a line")
m("VecM","inorm","Z.sqrt s","s","C05/C58: number of samples")
m("VecM","mk_volume","vabs (vsub a b)","vsub a b","C07: dimensions are not negative")
m("VecM","vol_center","2%num","1%num","C07: centre")
m("VecM","mk_ivolume","Z.abs (snd a - snd b)","snd a - snd b","C58: number of cells of a region")
m("FreeM","compute_ntff_point","repeat (0, 0)%num (length freq)","repeat (1, 0)%num (length freq)","C80: what the function returns")
m("FieldM","E_body","+","-","C77/C79: time reversal and dispersion need the curl's sign")
m("ArraysM","each2","else UB SizeMismatch","else Ok (map (fun '(x, y) => f x y) (combine a b))","C81: arrays of different lengths are undefined")
m("ArraysM","mk_adebye","Ok (ADebye eps deps tau)","if Nat.eqb (length deps) (length tau) then Ok (ADebye eps deps tau) else Throw InvalidArgument","C81: the constructor checks nothing")
m("ArraysM","ad_beta","1 + dt / (2 * t)","1 - dt / (2 * t)","C81: the arrays are the poles")
m("ArraysM","ad_npoles","ad_deps m","ad_tau m","C81: number of poles (equivalent for equal lengths)")
m("ArraysM","au_Ca","2 * au_eps m - dt","2 * au_eps m + dt","C81: the arrays are the poles")
m("ArraysM","al_delta","al_deps m","al_gamma m","C81: the arrays are the poles")
m("ArraysM","al_alpha","2 - npow w 2","npow w 2","C81: the arrays are the poles")
m("ArraysM","comma2","Ok (a ++ b)","Ok (b ++ a)","C81: merging keeps poles together")
m("ArraysM","adrude_lorentz","g / 2","g","C81: merging keeps poles together")
m("ConsoleM","display_info","g_dx g * nofZ (g_Nx g)","g_dx g * nofZ (g_Nx g - 1)","C82: the size shown")
m("ConsoleM","display_info","Value \"dt\" (g_dt g)","Value \"dt\" (g_dx g)","C82: dt is shown")
m("ConsoleM","prints","ph_step (f_ph s) + 1","ph_step (f_ph s)","C82: the progress line shows the new step")
m("ConsoleM","prints","Z.rem n 100","Z.rem n 1000","C82: every hundredth step")
m("ConsoleM","console","prints c s ++ match","match","C82: the progress lines")
m("ConsoleM","greeting","[NewFile filename]","[Value \"dx\" 1%num \"m\"]","C82: one value per label")
# --- doubles, rounding, sources, displaced scenes
m("Float","B64","nround := f64_toZ mode_NA","nround := f64_toZ mode_ZR","C87: a point goes to a cell that is nearest")
m("Float","B64","nceil := f64_toZ mode_UP","nceil := f64_toZ mode_NE","C87: number of cells in doubles")
m("Float","B64","nceil := f64_toZ mode_UP","nceil := f64_toZ mode_DN","C87: number of cells in doubles")
m("Float","f64_toZ","if is_finite x then","if true then","C87: a conversion of an infinite value is undefined")
m("Float","f64_add","mode_NE","mode_UP","C88: rounding errors of the step")
m("Float","f64_mul","mode_NE","mode_ZR","C88: rounding errors of the step")
m("Float","f64_div","mode_NE","mode_DN","C87/C88: rounding errors of a quotient")
m("Float","f64_ofZ","mode_NE z 0","mode_NE z 1","C87/C88: integers are converted exactly")
m("GridM","mk_grid","nceil (Lx * rs)","nceil (Lx / rs)","C87: number of cells in doubles")
m("GridM","mk_grid","let dx := (1 / rs)%num","let dx := rs","C87/C03: cell size")
m("GridM","to_grid","nround (fst p / g_dx g)","nround (fst p * g_res g)","C87: the nearest cell in doubles")
m("GridM","to_grid","nround (fst p / g_dx g)","nceil (fst p / g_dx g)","C87: the nearest cell in doubles")
m("GridM","to_real","g_dx g * nofZ (fst pi)","nofZ (fst pi) / g_res g","C87: round trip in doubles")
m("PmlM","a_func","(t - 1)","(t - 2)","C23/C21: a is not negative")
m("PmlM","a_func","nofZ (p_th p - 1)","nofZ (p_th p)","C15: grading of a")
m("PmlM","sig_func","nofZ (p_th p - 1)","nofZ (p_th p - 2)","C23: a layer one cell thick is usable")
m("PmlM","k_func","nofZ (p_th p - 1)","nofZ (p_th p - 2)","C23: a layer one cell thick is usable")
m("PmlM","b_func","sig_func p t / k_func p t","sig_func p t * k_func p t","C15: stretched coordinate (same value for k = 1 in exact reals)")
m("PmlM","c_func","sig_func p t * k_func p t +","sig_func p t * k_func p t -","C23/C21: |c| <= 1 - b")
m("PmlM","c_func","npow (k_func p t) 2 *","npow (k_func p t) 3 *","C15: stretched coordinate (same value for k = 1 in exact reals)")
m("PmlM","mk_pml_par","nofQ 4 5 *","- nofQ 4 5 *","C23/C21: sigma is not negative")
m("PmlM","mk_pml_par","/ g_dx g * 1","* g_dx g * 1","C15: sigma_max is relative to the cell size")
m("PmlM","scaling_step","k_func p t","sig_func p t","C23/C15: stretched cell size")
m("FieldM","E_body","(y1 - y0) / kx","(y1 - y0) * kx","C88/C15: difference quotient")
m("FieldM","E_body","(x0 - x1) / ky","(x0 - x1) / kx","C15: each axis has its own scaling")
m("FieldM","H_body","da * h - db","da * h - da * db","C15: magnetic update (same value for da = 1)")
m("FieldM","field_add","(fst p) (snd p) v","(snd p) (fst p) v","C84/C58: the driven cell")
m("FieldM","pulse_field","foldM (fun F p => field_add F c v p) F (line_cells is)","field_add F c v (is_a is)","C84/C58: all cells of a line are driven")
m("FieldM","pulse_src","(ph_t s)) (fun","(ph_t s + g_dt (ph_grid s))%num) (fun","C84/C66: the amplitude at the time of the step")
m("FieldM","pulse_src","(sr_c r) (sr_kind r) v (ph_F s)","Ez (sr_kind r) v (ph_F s)","C84/C41: sources of the magnetic field")
m("FieldM","step_sources","oloop 0 (length (ph_srcs s))","oloop 1 (length (ph_srcs s))","C84/C66: every source drives")
m("FieldM","line_cells","fst (is_dim is) + snd (is_dim is)","fst (is_dim is) + snd (is_dim is) + 1","C58: end point of a line is not driven")
# --- boxes with turned corners, simple materials in doubles
m("TfsfM","mk_tfsf","(fst (iv_a iv)) (fst (iv_b iv)) (snd (iv_a iv)) (snd (iv_b iv))","(Z.min (fst (iv_a iv)) (fst (iv_b iv))) (Z.max (fst (iv_a iv)) (fst (iv_b iv))) (Z.min (snd (iv_a iv)) (snd (iv_b iv))) (Z.max (snd (iv_a iv)) (snd (iv_b iv)))","C19: a box with turned corners injects nothing (corners put in order: a repair)")
m("TfsfM","tfsf_updateH","(q_jb q + 1)","(Z.max (q_ja q) (q_jb q) + 1)","C19: a box with turned corners injects nothing")
m("MaterialM","simple_Ca","/ (1 +","* (1 +","C42: damping in doubles")
m("MaterialM","simple_Ca","(1 - sm_conduc","(2 - sm_conduc","C42: lossless in doubles")
