(** C47: the moving mesh and the two-stage integrator keep constants and totals. *)
From Coq Require Import Reals List Bool Lra FunctionalExtensionality.
From Verif Require Import Forms_Model Forms_Proofs Forms3d_Model Forms3d_Spec P_Tracer3d TimeInt_Model RK_Model Extrude_Model.
Import ListNotations.
Open Scope R_scope.

(* ------------------------------------------------------------------ *)
(** * The extruded, moving mesh *)

Section Moving.
Context {V F E N : Type}.
(** Each cell point lies between two mesh interfaces of every vertex column of its
    base triangle; the vertical coordinate is interpolated linearly in the vertical and
    with the base functions [lam] horizontally (utility3d.py:763-799 computes it and the
    mesh velocity at the nodes). *)
Variable verts : V -> list N.
Variable lam : V -> N -> R.
Variable ztop zbot : V -> N -> R.         (* reference interfaces around the point *)
Variable bath : N -> R.
Variable area : V -> R.                   (* horizontal Jacobian times quadrature weight *)

(** height of the cell at the point for elevation [e] *)
Definition jac (e : N -> R) (p : V) : R :=
  integral (verts p) (lam p) (fun n => ale_z (e n) (bath n) (ztop p n) - ale_z (e n) (bath n) (zbot p n)).
(** quadrature weight at elevation [e] *)
Definition weight (e : N -> R) (p : V) : R := area p * jac e p.
(** vertical derivative of the mesh velocity with surface velocity [ws] *)
Definition dz_wmesh (e ws : N -> R) (p : V) : R :=
  integral (verts p) (lam p) (fun n => ale_w (ws n) (bath n) (ztop p n) - ale_w (ws n) (bath n) (zbot p n)) / jac e p.

(** Volume change of the cell at a point under a surface velocity. *)
Lemma volume_rate : forall e ws p, jac e p <> 0 ->
  weight e p * dz_wmesh e ws p
  = area p * integral (verts p) (lam p) (fun n => ale_w (ws n) (bath n) (ztop p n) - ale_w (ws n) (bath n) (zbot p n)).
Proof. intros e ws p H. unfold weight, dz_wmesh. field. exact H. Qed.

(** The first stage moves the mesh from elevation e0 to e1 with (e1-e0)/dt, the second
    computes (2 e2 - e1 - e0)/dt: the cells change by exactly the difference of the
    weights. *)
Lemma stage_volumes : forall dt e0 e1 e2 p, dt <> 0 -> (forall n, In n (verts p) -> bath n <> 0) ->
  jac e0 p <> 0 -> jac e1 p <> 0 ->
  dt * (weight e0 p * dz_wmesh e0 (fun n => stage_w_surf dt 0 (e0 n) (e1 n) (e1 n)) p) = weight e1 p - weight e0 p /\
  dt * (weight e1 p * dz_wmesh e1 (fun n => stage_w_surf dt 1 (e0 n) (e1 n) (e2 n)) p)
  = 2 * weight e2 p - weight e1 p - weight e0 p.
Proof.
  intros dt e0 e1 e2 p Hd Hb H0 H1. rewrite !volume_rate by assumption. unfold weight, jac.
  split.
  - transitivity (area p * integral (verts p) (lam p) (fun n =>
       (ale_z (e1 n) (bath n) (ztop p n) - ale_z (e1 n) (bath n) (zbot p n))
       - (ale_z (e0 n) (bath n) (ztop p n) - ale_z (e0 n) (bath n) (zbot p n)))).
    2:{ rewrite integral_minus. ring. }
    transitivity (area p * (dt * integral (verts p) (lam p) (fun n =>
       ale_w (stage_w_surf dt 0 (e0 n) (e1 n) (e1 n)) (bath n) (ztop p n)
       - ale_w (stage_w_surf dt 0 (e0 n) (e1 n) (e1 n)) (bath n) (zbot p n)))); [ring|].
    rewrite <- integral_scal. f_equal. apply integral_ext. intros n Hn. unfold ale_w, ale_z, stage_w_surf.
    field. split; [apply Hb, Hn|exact Hd].
  - transitivity (area p * integral (verts p) (lam p) (fun n =>
       2 * (ale_z (e2 n) (bath n) (ztop p n) - ale_z (e2 n) (bath n) (zbot p n))
       - (ale_z (e1 n) (bath n) (ztop p n) - ale_z (e1 n) (bath n) (zbot p n))
       - (ale_z (e0 n) (bath n) (ztop p n) - ale_z (e0 n) (bath n) (zbot p n)))).
    2:{ rewrite !integral_minus, integral_scal, !integral_minus. ring. }
    transitivity (area p * (dt * integral (verts p) (lam p) (fun n =>
       ale_w (stage_w_surf dt 1 (e0 n) (e1 n) (e2 n)) (bath n) (ztop p n)
       - ale_w (stage_w_surf dt 1 (e0 n) (e1 n) (e2 n)) (bath n) (zbot p n)))); [ring|].
    rewrite <- integral_scal. f_equal. apply integral_ext. intros n Hn. unfold ale_w, ale_z, stage_w_surf.
    field. split; [apply Hb, Hn|exact Hd].
Qed.

(** The divergence theorem in the vertical for the product of the mesh velocity and a
    test function; the mesh velocity is continuous between layers and zero at the
    bottom. *)
Definition gauss_z (M : mesh3 V F E) (phi wm : sfield3 V F E) : Prop :=
  dx3 M (fun p => a_v phi p * c2 (a_gv wm p) + a_v wm p * c2 (a_gv phi p))
  = dS_h M (fun f => a_f phi f true * a_f wm f true * c2 (nrm M f true)
                     + a_f phi f false * a_f wm f false * c2 (nrm M f false))
    + ds_surf M (fun e => a_e phi e * a_e wm e * c2 (g_ne M e))
    + ds_bottom M (fun e => a_e phi e * a_e wm e * c2 (g_ne M e)).
Definition mesh_velocity (M : mesh3 V F E) (wm : sfield3 V F E) : Prop :=
  (forall f, In f (g_hor M) -> a_f wm f true = a_f wm f false) /\
  (forall e, In e (g_bot M) -> a_e wm e = 0).

Lemma mesh_flux : forall M phi wm, mesh_velocity M wm -> gauss_z M phi wm ->
  w_lhs M phi wm = dx3 M (fun p => a_v phi p * c2 (a_gv wm p)).
Proof.
  intros M phi wm (Hf & Hb) G. unfold gauss_z in G. unfold w_lhs.
  assert (B : ds_bottom M (fun e => a_e phi e * a_e wm e * c2 (g_ne M e)) = 0).
  { unfold ds_bottom. apply integral_zero. intros e He. rewrite (Hb e He). ring. }
  assert (S : ds_surf M (fun e => a_e wm e * a_e phi e * c2 (g_ne M e)) = ds_surf M (fun e => a_e phi e * a_e wm e * c2 (g_ne M e))).
  { unfold ds_surf. apply integral_ext. intros; ring. }
  assert (H : dS_h M (fun f => avg (a_f wm f) * c2 (jump3 M phi f))
            = dS_h M (fun f => a_f phi f true * a_f wm f true * c2 (nrm M f true) + a_f phi f false * a_f wm f false * c2 (nrm M f false))).
  { unfold dS_h. apply integral_ext. intros f Hfi. unfold avg, jump3, add3, scal3. cbn [c2]. rewrite (Hf f Hfi). half. field. }
  assert (A : dx3 M (fun p => a_v phi p * c2 (a_gv wm p) + a_v wm p * c2 (a_gv phi p))
            = dx3 M (fun p => a_v phi p * c2 (a_gv wm p)) + dx3 M (fun p => c2 (a_gv phi p) * a_v wm p)).
  { unfold dx3. rewrite integral_plus. f_equal. apply integral_ext. intros; ring. }
  rewrite S, H. lra.
Qed.
End Moving.

(* ------------------------------------------------------------------ *)
(** * One coupled step *)

(** The tracer part of CoupledTwoStageRK.advance, coupled_timeintegrator.py:639-676: the
    velocities and the mesh velocity change before each stage ([k0], [k1]); the forms are
    assembled on the old mesh, then the mesh moves, then the stage is solved there, and
    the limiter is applied. *)
Section Step.
Context {D Geo Env : Type}.
Variable massg : Geo -> (D -> R) -> D -> R.
Variable Resg : Geo -> Env -> (D -> R) -> D -> R.
Variable msolve : Geo -> (D -> R) -> D -> R.
Variable limit : Geo -> (D -> R) -> D -> R.
Variable dt : R.
Definition with_env (k : Env) (s : ast (D:=D) (Geo:=Geo) (Env:=Env)) : ast :=
  mk_ast (asol s) (amu s) (amu_old s) (aold s) (ageo s) k.
Definition limited (s : ast (D:=D) (Geo:=Geo) (Env:=Env)) : ast :=
  mk_ast (limit (ageo s) (asol s)) (amu s) (amu_old s) (aold s) (ageo s) (aenv s).
Definition tracer_step (k0 k1 : Env) (g1 g2 : Geo) (t : R) (s : ast) : ast :=
  let s := ale_prepare_stage massg Resg dt None 0 t (with_env k0 s) in
  let s := limited (ale_stage_solve msolve (ale_move g1 s)) in
  let s := ale_prepare_stage massg Resg dt None 1 t (with_env k1 s) in
  limited (ale_stage_solve msolve (ale_move g2 s)).

Lemma step_const : forall k,
  (forall g, limit g (fun _ => k) = (fun _ => k)) ->
  forall k0 k1 g0 g1 g2 t s,
  (forall g m, In g [g1; g2] -> (forall d, massg g (fun _ => k) d = m d) -> msolve g m = (fun _ => k)) ->
  ageo s = g0 -> asol s = (fun _ => k) ->
  (forall d, dt * Resg g0 k0 (fun _ => k) d = massg g1 (fun _ => k) d - massg g0 (fun _ => k) d) ->
  (forall d, dt * Resg g1 k1 (fun _ => k) d = 2 * massg g2 (fun _ => k) d - massg g1 (fun _ => k) d - massg g0 (fun _ => k) d) ->
  asol (tracer_step k0 k1 g1 g2 t s) = (fun _ => k).
Proof.
  intros k HL k0 k1 g0 g1 g2 t s HS Hg Hs R0 R1.
  pose (a := ale_prepare_stage massg Resg dt None 0 t (with_env k0 s)).
  assert (A1 : amu a = fun d => massg g0 (fun _ => k) d + dt * Resg g0 k0 (fun _ => k) d) by (unfold a; cbn; rewrite Hg, Hs; reflexivity).
  assert (A2 : amu_old a = massg g0 (fun _ => k)) by (unfold a; cbn; rewrite Hg, Hs; reflexivity).
  pose (b := limited (ale_stage_solve msolve (ale_move g1 a))).
  assert (B0 : asol b = fun _ => k).
  { unfold b. cbn [limited ale_stage_solve ale_move asol amu ageo]. rewrite (HS g1); [apply HL|cbn; tauto|].
    intro d. rewrite A1. specialize (R0 d). lra. }
  assert (B1 : amu b = amu a) by reflexivity. assert (B2 : amu_old b = amu_old a) by reflexivity.
  assert (B3 : ageo b = g1) by reflexivity.
  change (tracer_step k0 k1 g1 g2 t s)
    with (limited (ale_stage_solve msolve (ale_move g2 (ale_prepare_stage massg Resg dt None 1 t (with_env k1 b))))).
  clearbody b. pose (c := ale_prepare_stage massg Resg dt None 1 t (with_env k1 b)). fold c.
  assert (C1 : amu c = fun d => 1/2 * amu b d + 1/2 * amu_old b d + 1/2 * (dt * Resg g1 k1 (fun _ => k) d)).
  { unfold c. cbn -[Rplus Rmult Rdiv]. rewrite B3, B0. reflexivity. }
  clearbody c. cbn [limited ale_stage_solve ale_move asol amu ageo]. rewrite (HS g2); [apply HL|cbn; tauto|].
  intro d. rewrite C1, B1, B2, A1, A2. specialize (R0 d). specialize (R1 d). lra.
Qed.
End Step.

Section Constants.
Context {V F E N D : Type}.
Variable verts : V -> list N.
Variable lam : V -> N -> R.
Variable ztop zbot : V -> N -> R.
Variable bath : N -> R.
Variable area : V -> R.
(** the mesh at a given elevation; only its cell weights are computed here *)
Variable mesh_at : (N -> R) -> mesh3 V F E.
(** base functions on a mesh, moving with it, and the function with given coefficients *)
Variable phi : (N -> R) -> D -> sfield3 V F E.
Variable field : (N -> R) -> (D -> R) -> sfield3 V F E.
Variable msolve : (N -> R) -> (D -> R) -> D -> R.
Variable limit : (N -> R) -> (D -> R) -> D -> R.

(** mass_term and mu_form, equation.py and timeintegrator.py:650: the L2 product. *)
Definition mass3 (e : N -> R) (u : D -> R) (d : D) : R :=
  dx3 (mesh_at e) (fun p => a_v (field e u) p * a_v (phi e d) p).
Definition res3 (e : N -> R) (K : tenv3 V F E) (u : D -> R) (d : D) : R :=
  tracer_residual3 (mesh_at e) K (phi e d) (field e u).

(** Facts about the finite element space and the solver. *)
Record space_ok : Prop := mk_space_ok
  { sp_cells : forall e e', g_cells (mesh_at e) = g_cells (mesh_at e');
    sp_weight : forall e p, g_wv (mesh_at e) p = weight verts lam ztop zbot bath area e p;
    (* base functions move with the mesh *)
    sp_moves : forall e e' d p, a_v (phi e d) p = a_v (phi e' d) p;
    (* equal coefficients give the constant function *)
    sp_unity : forall e k, field e (fun _ => k) = const3 k;
    (* on a mesh with cells of positive height the mass matrix is inverted *)
    sp_solve : forall e, (forall p, In p (g_cells (mesh_at e)) -> 0 < jac verts lam ztop zbot bath e p) ->
      forall u m, (forall d, mass3 e u d = m d) -> msolve e m = u;
    sp_limit : forall e k, limit e (fun _ => k) = (fun _ => k) }.

(** What a stage needs: continuity of the velocities on the mesh, boundary conditions as
    for momentum with external values [k], the mesh velocity with surface value [ws]. *)
Record stage_ok (ob : nat -> bool) (k : R) (e ws : N -> R) (K : tenv3 V F E) : Prop := mk_stage_ok
  { st_uv : exists uv w wm, full_uv K = Some uv /\ k_w K = Some w /\ k_wmesh K = Some wm
      /\ surface_velocity (mesh_at e) (k_symm K) uv
      /\ (forall d, continuity (mesh_at e) ob uv w (phi e d))
      /\ mesh_velocity (mesh_at e) wm /\ (forall d, gauss_z (mesh_at e) (phi e d) wm)
      /\ (forall p, In p (g_cells (mesh_at e)) -> c2 (a_gv wm p) = dz_wmesh verts lam ztop zbot bath e ws p);
    st_dg : k_hdg K = true /\ k_vdg K = true;
    st_source : k_source K = None;
    st_bnd : same_open (mesh_at e) ob (k_bnd K) /\ ext_constant (mesh_at e) (k_bnd K) k }.

Lemma stage_res : forall ob k e ws K d, space_ok -> stage_ok ob k e ws K ->
  res3 e K (fun _ => k) d = k * dx3 (mesh_at e) (fun p => a_v (phi e d) p * dz_wmesh verts lam ztop zbot bath e ws p).
Proof.
  intros ob k e ws K d SP [(uv & w & wm & Hu & Hw & Hm & Hs & Hc & Hv & Hg & Hz) (Hh & Hvd) Hq (Ho & Hx)].
  unfold res3. rewrite (sp_unity SP). unfold tracer_residual3, tsource.
  rewrite (C59_constants_formula (mesh_at e) K ob k (phi e d) uv w Hu Hw Hh Hvd Hs (Hc d)), Hm, Hq.
  rewrite (lat_defect_zero (mesh_at e) K ob k (phi e d) uv Ho Hx).
  destruct (diff_const (mesh_at e) K k (phi e d)) as (-> & ->).
  rewrite (mesh_flux (mesh_at e) (phi e d) wm Hv (Hg d)).
  unfold dx3. rewrite (integral_ext (g_cells (mesh_at e)) (g_wv (mesh_at e)) _
    (fun p => a_v (phi e d) p * dz_wmesh verts lam ztop zbot bath e ws p)); [ring|].
  intros p Hp. now rewrite (Hz p Hp).
Qed.

Lemma cells_any : forall e0 e g, space_ok ->
  dx3 (mesh_at e) g = integral (g_cells (mesh_at e0)) (fun _ => 1)
    (fun p => weight verts lam ztop zbot bath area e p * g p).
Proof.
  intros e0 e g SP. unfold dx3. rewrite (sp_cells SP e e0).
  induction (g_cells (mesh_at e0)) as [|p l IH]; [reflexivity|]. rewrite !integral_cons, IH, (sp_weight SP). ring.
Qed.

(** A uniform tracer stays uniform on the moving mesh: a coupled step from elevation [e0]
    over the stage elevation [e1] to [e2] maps the constant [k] to the constant [k],
    whatever the flow. *)
Theorem C47_constants_kept : forall ob k dt t e0 e1 e2 K0 K1 s,
  space_ok -> dt <> 0 ->
  (forall p n, In n (verts p) -> bath n <> 0) ->
  (forall e p, In e [e0; e1; e2] -> In p (g_cells (mesh_at e0)) -> 0 < jac verts lam ztop zbot bath e p) ->
  stage_ok ob k e0 (fun n => stage_w_surf dt 0 (e0 n) (e1 n) (e1 n)) K0 ->
  stage_ok ob k e1 (fun n => stage_w_surf dt 1 (e0 n) (e1 n) (e2 n)) K1 ->
  ageo s = e0 -> asol s = (fun _ => k) ->
  asol (tracer_step mass3 res3 msolve limit dt K0 K1 e1 e2 t s) = (fun _ => k).
Proof.
  intros ob k dt t e0 e1 e2 K0 K1 s SP Hdt Hb Hj S0 S1 Hg Hs.
  pose (P := g_cells (mesh_at e0)).
  assert (R0 : forall d, dt * res3 e0 K0 (fun _ => k) d = mass3 e1 (fun _ => k) d - mass3 e0 (fun _ => k) d).
  { intro d. rewrite (stage_res ob k e0 _ K0 d SP S0). unfold mass3. rewrite !(sp_unity SP).
    rewrite (cells_any e0 e0), (cells_any e0 e1), (cells_any e0 e0) by exact SP.
    rewrite <- integral_minus.
    rewrite <- !integral_scal. apply integral_ext. intros p Hp. cbn [const3 a_v].
    assert (J0 : jac verts lam ztop zbot bath e0 p <> 0) by (specialize (Hj e0 p ltac:(cbn; tauto) Hp); lra).
    assert (J1 : jac verts lam ztop zbot bath e1 p <> 0) by (specialize (Hj e1 p ltac:(cbn; tauto) Hp); lra).
    destruct (stage_volumes verts lam ztop zbot bath area dt e0 e1 e2 p Hdt (Hb p) J0 J1) as (A & _).
    rewrite (sp_moves SP e1 e0 d p).
    transitivity (k * a_v (phi e0 d) p * (weight verts lam ztop zbot bath area e1 p - weight verts lam ztop zbot bath area e0 p));
      [rewrite <- A; ring|ring]. }
  assert (R1 : forall d, dt * res3 e1 K1 (fun _ => k) d = 2 * mass3 e2 (fun _ => k) d - mass3 e1 (fun _ => k) d - mass3 e0 (fun _ => k) d).
  { intro d. rewrite (stage_res ob k e1 _ K1 d SP S1). unfold mass3. rewrite !(sp_unity SP).
    rewrite (cells_any e0 e1), (cells_any e0 e2), (cells_any e0 e1), (cells_any e0 e0) by exact SP.
    rewrite <- !integral_scal. rewrite <- !integral_minus.
    apply integral_ext. intros p Hp. cbn [const3 a_v].
    assert (J0 : jac verts lam ztop zbot bath e0 p <> 0) by (specialize (Hj e0 p ltac:(cbn; tauto) Hp); lra).
    assert (J1 : jac verts lam ztop zbot bath e1 p <> 0) by (specialize (Hj e1 p ltac:(cbn; tauto) Hp); lra).
    destruct (stage_volumes verts lam ztop zbot bath area dt e0 e1 e2 p Hdt (Hb p) J0 J1) as (_ & A).
    rewrite (sp_moves SP e2 e0 d p), (sp_moves SP e1 e0 d p).
    transitivity (k * a_v (phi e0 d) p * (2 * weight verts lam ztop zbot bath area e2 p
       - weight verts lam ztop zbot bath area e1 p - weight verts lam ztop zbot bath area e0 p));
      [rewrite <- A; ring|ring]. }
  refine (step_const mass3 res3 msolve limit dt k (fun e => sp_limit SP e k) K0 K1 e0 e1 e2 t s _ Hg Hs R0 R1).
  intros g m Hg'. apply (sp_solve SP). intros p Hp. apply Hj; [cbn in *; tauto|]. now rewrite (sp_cells SP e0 g).
Qed.
End Constants.

(* ------------------------------------------------------------------ *)
(** * Example: one column of water, 10 m deep, filled through an open side *)
Section Example_.
Let bath (_ : unit) : R := 10.
Let area (_ : unit) : R := 2.
(** facets: 0 surface, 1 bottom, 2 side *)
Let mesh1 (e : unit -> R) : mesh3 unit unit nat :=
  mk_mesh3 [tt] (fun _ => 2 * (e tt + 10)) [] [] (fun _ => 0) (fun _ => zero3)
    [0%nat] [1%nat] [2%nat]
    (fun n => match n with 2%nat => 5 | _ => 2 end)
    (fun n => match n with 0%nat => V3 0 0 1 | 1%nat => V3 0 0 (-1) | _ => V3 1 0 0 end) (fun n => n).
Let base (_ : unit -> R) (_ : unit) : sfield3 unit unit nat := const3 1.
Let fld (_ : unit -> R) (u : unit -> R) : sfield3 unit unit nat := const3 (u tt).
Let solve1 (e : unit -> R) (m : unit -> R) (_ : unit) : R := m tt / (2 * (e tt + 10)).
Let lim1 (_ : unit -> R) (u : unit -> R) : unit -> R := u.
(** water enters with 1 m/s and leaves upwards *)
Let uv1 : vfield3 unit unit nat := mk_vf3 (const3 (-1)) (const3 0) (const3 0).
Let w1 : sfield3 unit unit nat := mk_s3 (fun _ => 0) (fun _ => zero3) (fun _ _ => 0) (fun _ _ => zero3)
  (fun n => match n with 0%nat => 5/2 | _ => 0 end) (fun _ => zero3).
Let wm1 (e ws : R) : sfield3 unit unit nat := mk_s3 (fun _ => 0) (fun _ => V3 0 0 (ws / (e + 10))) (fun _ _ => 0) (fun _ _ => zero3)
  (fun n => match n with 0%nat => ws | _ => 0 end) (fun _ => zero3).
Let env1 (e ws : R) : tenv3 unit unit nat :=
  mk_tenv3 true true true (Some 1) (Some uv1) None (Some w1) (Some (wm1 e ws)) None None (fun _ _ => 1) (fun _ _ => 1) 1 1 None
    (fun n => match n with 2%nat => Some (mk_tb3 (Some (fun _ => 35)) XSym) | _ => None end) 0.
Let verts1 (_ : unit) := [tt].
Let lam1 (_ _ : unit) : R := 1.
Let zt (_ _ : unit) : R := 0.
Let zb (_ _ : unit) : R := -10.

Lemma jac1 : forall e p, jac verts1 lam1 zt zb bath e p = e tt + 10.
Proof. intros e p. unfold jac, integral, verts1, lam1, zt, zb, bath, ale_z. cbn [fold_right]. field. Qed.
Lemma space1 : space_ok verts1 lam1 zt zb bath area mesh1 base fld solve1 lim1.
Proof.
  constructor.
  - reflexivity.
  - intros e p. unfold weight. rewrite jac1. reflexivity.
  - reflexivity.
  - reflexivity.
  - intros e Hj u m H. apply functional_extensionality. intros []. specialize (H tt). specialize (Hj tt ltac:(left; reflexivity)).
    rewrite jac1 in Hj. unfold solve1. rewrite <- H. unfold mass3, dx3, integral, mesh1, fld, base. cbn [g_cells g_wv fold_right const3 a_v].
    field. lra.
  - reflexivity.
Qed.
Lemma stage1 : forall (e ws : unit -> R), 0 < e tt + 10 ->
  stage_ok verts1 lam1 zt zb bath mesh1 base (fun n => Nat.eqb n 2) 35 e ws (env1 (e tt) (ws tt)).
Proof.
  intros e ws He. constructor.
  - exists uv1, w1, (wm1 (e tt) (ws tt)).
    split; [reflexivity|]. split; [reflexivity|]. split; [reflexivity|].
    split; [intros x _; cbn; ring|].
    split.
    { intros d. unfold continuity, w_lhs, w_rhs, ds_surf, ds_lat, dS_h, dS_v, dx3, integral, mesh1.
      cbn -[Rplus Rmult Rminus Rdiv Ropp IZR]. unfold dot3, doth. cbn -[Rplus Rmult Rminus Rdiv Ropp IZR]. field. }
    split.
    { split; [intros f []|]. intros x [<-|[]]; reflexivity. }
    split.
    { intros d. unfold gauss_z, dx3, dS_h, ds_surf, ds_bottom, integral, mesh1. cbn -[Rplus Rmult Rminus Rdiv Ropp IZR]. field. lra. }
    intros p _. unfold dz_wmesh. rewrite jac1. unfold integral, verts1, lam1, zt, zb, bath, ale_w.
    cbn -[Rplus Rmult Rminus Rdiv Ropp IZR]. field. lra.
  - split; reflexivity.
  - reflexivity.
  - split.
    + intros x [<-|[]]. cbn. split; [discriminate|reflexivity].
    + intros x tb v [<-|[]] H. cbn in H. injection H as <-. cbn. intro H. injection H as <-. reflexivity.
Qed.
Example C47_constants_example : forall t s,
  ageo s = (fun _ : unit => 0) -> asol s = (fun _ : unit => 35) ->
  asol (tracer_step (mass3 mesh1 base fld) (res3 mesh1 base fld) solve1 lim1 1
     (env1 0 1) (env1 1 2) (fun _ => 1) (fun _ => 3/2) t s) = (fun _ => 35).
Proof.
  intros t s Hg Hs.
  apply (C47_constants_kept verts1 lam1 zt zb bath area mesh1 base fld solve1 lim1 (fun n => Nat.eqb n 2) 35 1 t
           (fun _ => 0) (fun _ => 1) (fun _ => 3/2)); [apply space1|lra| | | | |exact Hg|exact Hs].
  - intros p n _. unfold bath. lra.
  - intros e p He _. rewrite jac1. destruct He as [<-|[<-|[<-|[]]]]; lra.
  - assert (HH : (fun _ : unit => stage_w_surf 1 0 0 1 1) = (fun _ => 1))
      by (apply functional_extensionality; intros _; unfold stage_w_surf; cbn; field).
    rewrite HH. apply (stage1 (fun _ => 0) (fun _ => 1)). lra.
  - assert (HH : (fun _ : unit => stage_w_surf 1 1 0 1 (3/2)) = (fun _ => 2))
      by (apply functional_extensionality; intros _; unfold stage_w_surf; cbn; field).
    rewrite HH. apply (stage1 (fun _ => 1) (fun _ => 2)). lra.
Qed.
End Example_.

Print Assumptions C47_constants_kept.
