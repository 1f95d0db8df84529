(** Model of thetis/sediment_model.py, thetis/exner_eq.py and the exchange terms of
    thetis/sediment_eq_2d.py.  UFL expressions are evaluated at one point, in real
    arithmetic; projections and interpolations are the identity at that point.  The
    residual of a term is represented by the factor that multiplies the test function. *)
From Coq Require Import Reals List String.
Import ListNotations.
Open Scope R_scope.

(** physical_constants.py *)
Definition g_grav : R := 9.81.
Definition rho0 : R := 1000.
Definition kappa : R := 0.4.

Definition conditional_gt (a b x y : R) : R := if Rlt_dec b a then x else y.

(** ** Grain parameters, sediment_model.py *)
(** R, 133 *)
Definition rel_density (rhos : R) : R := rhos / rho0 - 1.
(** dstar, 139 *)
Definition dstar (size rhos visc : R) : R := size * Rpower (g_grav * rel_density rhos / visc ^ 2) (1 / 3).
(** thetacr, 142-145 *)
Definition thetacr (d : R) : R :=
  if Rlt_dec d 4 then 0.24 * Rpower d (-1)
  else if Rlt_dec d 10 then 0.14 * Rpower d (- (64 / 100))
  else if Rlt_dec d 20 then 0.04 * Rpower d (- (1 / 10))
  else if Rlt_dec d 150 then 0.013 * Rpower d (29 / 100)
  else 0.055.
(** taucr, 148 *)
Definition taucr (size rhos d : R) : R := (rhos - rho0) * g_grav * size * thetacr d.
(** settling_velocity, 151-155 *)
Definition settling_velocity (size rhos visc : R) : R :=
  let r := rel_density rhos in
  if Rle_dec size (1 / 10000) then g_grav * size ^ 2 * r / (18 * visc)
  else if Rle_dec size (1 / 1000)
       then (10 * visc / size) * (sqrt (1 + 0.01 * (r * g_grav * size ^ 3 / visc ^ 2)) - 1)
       else 1.1 * sqrt (g_grav * size * r).

(** ** Bed friction *)
(** qfc, 166-169; [zref] is bed_reference_height *)
Definition qfc (depth zref : R) : R :=
  let hc := conditional_gt depth 0.001 depth 0.001 in
  let aux := conditional_gt (11.036 * hc / zref) 1.001 (11.036 * hc / zref) 1.001 in
  2 / (ln aux / kappa) ^ 2.
(** cfactor, 171-172 *)
Definition cfactor (depth ksp : R) : R :=
  conditional_gt depth ksp (2 * / ((1 / kappa) * ln (11.036 * depth / ksp)) ^ 2) 0.
(** mu, 174 *)
Definition mu (depth zref ksp : R) : R :=
  conditional_gt (qfc depth zref) 0 (cfactor depth ksp / qfc depth zref) 0.
(** the bed stress expression of 179 and 195 *)
Definition bed_stress (q unorm : R) : R := rho0 * 0.5 * q * unorm.

(** ** Suspended sediment *)
(** B, 183 *)
Definition Bfac (a depth : R) : R := conditional_gt a depth 1 (a / depth).
(** ustar, 184; rouse_number, 185 *)
Definition ustar (q unorm : R) : R := sqrt (0.5 * q * unorm).
Definition rouse_number (ws us : R) : R := ws / (kappa * us) - 1.
(** intermediate_step, 187-189 *)
Definition intermediate_step (b rouse : R) : R :=
  conditional_gt (Rabs rouse) (1 / 10000)
    (b * (1 - Rpower b (Rmin rouse 3)) / Rmin rouse 3) (- b * ln b).
(** integrated_rouse, 191-192 *)
Definition tiny : R := / 10 ^ 12.
Definition integrated_rouse (step : R) : R :=
  Rmax (conditional_gt step tiny (1 / step) (10 ^ 12)) 1.
(** transport_stage_param, 195-197 *)
Definition transport_stage (skin_stress tcr : R) : R :=
  conditional_gt skin_stress 0 ((skin_stress - tcr) / tcr) (-1).
(** x ** 1.5 of a non-negative number *)
Definition pow15 (x : R) : R := x * sqrt x.
(** erosion_concentration, 199-201 *)
Definition erosion_concentration (size a stage d : R) : R :=
  0.015 * (size / a) * pow15 (Rmax stage 0) / Rpower d (3 / 10).
(** equilibrium_tracer, 207; _deposition, 210; _erosion, 211 *)
Definition equilibrium_tracer (ero_conc irouse : R) : R := ero_conc / irouse.
Definition deposition_coefficient (ws irouse : R) : R := ws * irouse.
Definition erosion_term (ws ero_conc : R) : R := ws * ero_conc.

(** ** Exchange terms *)
(** SedimentErosionTerm.residual, sediment_eq_2d.py:87-93 *)
Definition sediment_erosion (conservative : bool) (ero H : R) : R :=
  if conservative then ero else ero / H.
(** SedimentDepositionTerm.residual, sediment_eq_2d.py:99-104 *)
Definition sediment_deposition (depo H s : R) : R := - (depo / H * s).
(** ExnerSourceTerm.residual, exner_eq.py:68-84 *)
Definition exner_source (depth_integrated : bool) (morfac porosity ero depo H s : R) : R :=
  let fac := morfac / (1 - porosity) in
  let deposition := depo * s in
  let deposition := if depth_integrated then deposition / H else deposition in
  fac * (ero - deposition).

(** ** CorrectiveVelocityFactor, 6-48 *)
Definition conv_ratio (depth z : R) : R := conditional_gt depth (1.1 * z) (z / depth) (1 / 1.1).
Definition amax (depth ksp a : R) : R :=
  let b := conv_ratio depth ksp in let c := conv_ratio depth a in conditional_gt c b c b.
Definition r1conv (ws us : R) : R := 1 - (1 / kappa) * (if Rlt_dec (ws / us) 1 then ws / us else 1).
Definition eps8 : R := / 10 ^ 8.
Definition i_one (A r : R) : R :=
  conditional_gt r eps8 ((1 - Rpower A r) / r)
    (if Rlt_dec r (- eps8) then (1 - Rpower A r) / r else ln A).
Definition i_two (A r : R) : R :=
  let v := - (i_one A r + ln A * Rpower A r) / r in
  conditional_gt r eps8 v (if Rlt_dec r (- eps8) then v else - (1 / 2) * (ln A) ^ 2).
Definition alpha_conv (A r : R) : R :=
  - (i_two A r - (ln A - ln 30) * i_one A r) / (i_one A r * ((ln A - ln 30) + 1)).
Definition velocity_correction_factor (A r : R) : R := Rmax (Rmin (alpha_conv A r) 1) 0.

(** ** Bedload, 222-310 *)
Record bedload_input := mkBl {
  bl_u : R; bl_v : R;                 (* uv_cg *)
  bl_zx : R; bl_zy : R;               (* gradient of the bathymetry argument *)
  bl_zox : R; bl_zoy : R;             (* gradient of old_bathymetry_2d *)
  bl_dx : R; bl_dy : R;               (* gradient of depth_tot *)
  bl_depth : R; bl_qfc : R; bl_mu : R;
  bl_rhos : R; bl_size : R; bl_thetacr : R;
  bl_beta : R; bl_surbeta2 : R; bl_alpha_secc : R }.
Record bedload_opts := mkBo { o_slope : bool; o_angle : bool; o_secondary : bool }.
Definition unorm (i : bedload_input) : R := bl_u i ^ 2 + bl_v i ^ 2.
Definition calfa (i : bedload_input) : R := bl_u i / sqrt (unorm i).
Definition salfa (i : bedload_input) : R := bl_v i / sqrt (unorm i).
Definition stress (i : bedload_input) : R := bed_stress (bl_qfc i) (unorm i).
(** slopecoef, 235-240 *)
Definition slopecoef (o : bedload_opts) (i : bedload_input) : R :=
  if o_slope o then 1 + bl_beta i * (bl_zx i * calfa i + bl_zy i * salfa i) else 1.
(** the angle correction, 242-256 *)
Definition eps10 : R := / 10 ^ 10.
Definition tt1 (i : bedload_input) : R :=
  let cparam := (bl_rhos i - rho0) * g_grav * bl_size i * bl_surbeta2 i ^ 2 in
  conditional_gt (stress i) eps10 (sqrt (cparam / stress i)) (sqrt (cparam / eps10)).
Definition angle_norm (i : bedload_input) : R :=
  let aa := salfa i + tt1 i * bl_zoy i in
  let bb := calfa i + tt1 i * bl_zox i in
  let comb := sqrt (aa ^ 2 + bb ^ 2) in
  conditional_gt comb eps10 comb eps10.
Definition calfamod (i : bedload_input) : R := (calfa i + tt1 i * bl_zx i) / angle_norm i.
Definition salfamod (i : bedload_input) : R := (salfa i + tt1 i * bl_zy i) / angle_norm i.
(** the secondary current, 258-285 *)
Definition velocity_slide (i : bedload_input) : R :=
  bl_u i * (bl_dy i - bl_zy i) - bl_v i * (bl_dx i - bl_zx i).
Definition tandelta (i : bedload_input) : R :=
  7 * g_grav * rho0 * bl_depth i * bl_qfc i / (2 * bl_alpha_secc i * unorm i).
Definition t_1 (o : bedload_opts) (i : bedload_input) : R :=
  stress i * slopecoef o i * (if o_angle o then calfamod i else calfa i)
  + bl_v i * tandelta i * velocity_slide i.
Definition t_2 (o : bedload_opts) (i : bedload_input) : R :=
  stress i * slopecoef o i * (if o_angle o then salfamod i else salfa i)
  - bl_u i * tandelta i * velocity_slide i.
Definition t_4 (o : bedload_opts) (i : bedload_input) : R := sqrt (t_1 o i ^ 2 + t_2 o i ^ 2).
(** Meyer-Peter-Mueller, 287-291 *)
Definition thetaprime (i : bedload_input) : R :=
  bl_mu i * stress i / ((bl_rhos i - rho0) * g_grav * bl_size i).
Definition phi (i : bedload_input) : R :=
  if Rlt_dec (thetaprime i) (bl_thetacr i) then 0 else 8 * pow15 (thetaprime i - bl_thetacr i).
(** 293-310 *)
Definition bedload_scale (i : bedload_input) : R :=
  sqrt (g_grav * rel_density (bl_rhos i) * bl_size i ^ 3).
Definition bedload (o : bedload_opts) (i : bedload_input) : R * R :=
  let coef := if o_secondary o then t_4 o i / stress i else slopecoef o i in
  let qb := coef * phi i * bedload_scale i in
  if andb (o_angle o) (negb (o_secondary o)) then (qb * calfamod i, qb * salfamod i)
  else if o_secondary o then (qb * (t_1 o i / t_4 o i), qb * (t_2 o i / t_4 o i))
  else (qb * calfa i, qb * salfa i).

(** ** Sediment slide, 312-354: the diffusion coefficient alphaconst *)
Definition slide_coefficient (max_angle L porosity dt morfac dzdx dzdy : R) : R :=
  let tanphi := tan (max_angle * PI / 180) in
  let nz := 1 / sqrt (1 + (dzdx ^ 2 + dzdy ^ 2)) in
  let s := sqrt (1 - nz ^ 2) in
  let betaangle := asin s in
  let tanbeta := s / nz in
  let qaval := if Rlt_dec 0 (tanbeta - tanphi)
               then (1 - porosity) * (1 / 2) * L ^ 2 * (tanbeta - tanphi) / cos (betaangle * dt * morfac)
               else 0 in
  if Rlt_dec 0 s then - qaval * nz ^ 2 / s else 0.

(** ** ExnerBedloadTerm, exner_eq.py:112-125: does a boundary contribute?  A boundary
    value is a number, a pair of numbers, or an expression that float() refuses *)
Inductive bval := BNum (x : R) | BVec (x y : R) | BExpr.
(** None is the TypeError of float() *)
Fixpoint closed_boundary (funcs : list (string * bval)) (no_contr : bool) : option bool :=
  match funcs with
  | [] => Some no_contr
  | (k, v) :: rest =>
    if negb (orb (String.eqb k "elev") (String.eqb k "uv")) then
      match v with
      | BNum x => closed_boundary rest (if Req_EM_T x 0 then true else no_contr)
      | _ => None
      end
    else if String.eqb k "uv" then
      match v with
      | BVec x y => closed_boundary rest
          (if Req_EM_T x 0 then if Req_EM_T y 0 then true else no_contr else no_contr)
      | _ => None
      end
    else closed_boundary rest no_contr
  end.
