(** Further properties, found missing by trying wrong programs: sources of 3D tracers
    (C59), pressure force, open boundaries and bottom friction of the 3D momentum equation
    (C60), what the coupled integrators initialise and keep up to date (C61). *)
From Coq Require Import Reals List Bool Lra Lia String.
From Verif Require Import Forms_Model Forms_Proofs Forms3d_Model Forms3d_Spec P_Tracer3d Mom3d_Model P_Mom3d P_Mom3d_Pressure Coupled3d_Model Coupled3d_Proofs.
Import ListNotations.
Open Scope R_scope.

(** ** C59 *)
Section Tracer.
Context {V F E : Type}.
Variable M : mesh3 V F E.

(** The equation with another source and everything else unchanged. *)
Definition with_source (K : tenv3 V F E) (s : option (V -> R)) : tenv3 V F E :=
  mk_tenv3 (k_hdg K) (k_vdg K) (k_symm K) (k_lax K) (k_uv K) (k_dav K) (k_w K) (k_wmesh K) (k_muh K) (k_muv K)
    (k_sigh K) (k_sigv K) (k_sipgh K) (k_sipgv K) s (k_bnd K) (k_sign0 K).

(** A source is added to the rate of change: the residual grows by the integral of source
    times test function, so a source that is nowhere negative never removes tracer. *)
Theorem C59_source_budget : forall K s phi c,
  tracer_residual3 M (with_source K (Some s)) phi c
  = tracer_residual3 M (with_source K None) phi c + dx3 M (fun p => s p * a_v phi p)
  /\ (positive3 M -> (forall p, 0 <= s p) ->
      tracer_residual3 M (with_source K None) (const3 1) c <= tracer_residual3 M (with_source K (Some s)) (const3 1) c).
Proof.
  intros K s phi c.
  assert (A : forall f, tracer_residual3 M (with_source K (Some s)) f c
     = tracer_residual3 M (with_source K None) f c + dx3 M (fun p => s p * a_v f p)).
  { intro f. unfold tracer_residual3.
    change (hor_adv M (with_source K (Some s)) f c) with (hor_adv M (with_source K None) f c).
    change (ver_adv M (with_source K (Some s)) f c) with (ver_adv M (with_source K None) f c).
    change (hor_diff M (with_source K (Some s)) f c) with (hor_diff M (with_source K None) f c).
    change (ver_diff M (with_source K (Some s)) f c) with (ver_diff M (with_source K None) f c).
    unfold tsource. cbn [with_source k_source]. ring. }
  split; [apply A|]. intros (PC & _) Hs. rewrite A.
  assert (0 <= dx3 M (fun p => s p * a_v (const3 (V:=V) (F:=F) (E:=E) 1) p)); [|lra].
  apply integral_nonneg; intros p Hp; [pose proof (PC p Hp); lra|]. cbn. pose proof (Hs p). lra.
Qed.
End Tracer.

(** ** C60 *)
Section Mom.
Context {V F E : Type}.
Variable M : mesh3 V F E.

Definition with_intpg (K : menv3 V F E) (g : option (V -> v3)) : menv3 V F E :=
  mk_menv3 (m_nonlin K) (m_hdg K) (m_vdg K) (m_lax K) (m_dav K) (m_w K) (m_wmesh K) (m_muh K) (m_muv K)
    (m_sigh K) (m_sigv K) (m_sipgh K) (m_sipgv K) (m_friction K) (m_quad K) (m_z0 K) (m_velem K) (m_kappa K)
    (m_linear K) (m_coriolis K) (m_wind K) (m_rho0 K) (m_source K) g (m_bnd K) (m_sign0 K).
Definition with_dav (K : menv3 V F E) (d : option (vfield3 V F E)) : menv3 V F E :=
  mk_menv3 (m_nonlin K) (m_hdg K) (m_vdg K) (m_lax K) d (m_w K) (m_wmesh K) (m_muh K) (m_muv K)
    (m_sigh K) (m_sigv K) (m_sipgh K) (m_sipgv K) (m_friction K) (m_quad K) (m_z0 K) (m_velem K) (m_kappa K)
    (m_linear K) (m_coriolis K) (m_wind K) (m_rho0 K) (m_source K) (m_intpg K) (m_bnd K) (m_sign0 K).

(** The internal pressure gradient pushes the water against itself: it adds to the residual
    minus the integral of gradient times test function, and nothing else changes. *)
Theorem C60_pressure_force : forall K g psi u u_old r0 r1,
  mom_residual M (with_intpg K None) psi u u_old = Some r0 ->
  mom_residual M (with_intpg K (Some g)) psi u u_old = Some r1 ->
  r1 = r0 - dx3 M (fun p => c0 (g p) * a_v (w_x psi) p + c1 (g p) * a_v (w_y psi) p).
Proof.
  intros K g psi u u_old r0 r1 H0 H1. unfold mom_residual in H0, H1.
  change (m_bfric M (with_intpg K None) psi u u_old) with (m_bfric M K psi u u_old) in H0.
  change (m_bfric M (with_intpg K (Some g)) psi u u_old) with (m_bfric M K psi u u_old) in H1.
  destruct (m_bfric M K psi u u_old) as [bf|]; [|discriminate].
  change (m_hadv M (with_intpg K None)) with (m_hadv M K) in H0.
  change (m_vadv M (with_intpg K None)) with (m_vadv M K) in H0.
  change (m_hvisc M (with_intpg K None)) with (m_hvisc M K) in H0.
  change (m_vvisc M (with_intpg K None)) with (m_vvisc M K) in H0.
  change (m_ldrag M (with_intpg K None)) with (m_ldrag M K) in H0.
  change (m_cor M (with_intpg K None)) with (m_cor M K) in H0.
  change (m_src M (with_intpg K None)) with (m_src M K) in H0.
  change (m_hadv M (with_intpg K (Some g))) with (m_hadv M K) in H1.
  change (m_vadv M (with_intpg K (Some g))) with (m_vadv M K) in H1.
  change (m_hvisc M (with_intpg K (Some g))) with (m_hvisc M K) in H1.
  change (m_vvisc M (with_intpg K (Some g))) with (m_vvisc M K) in H1.
  change (m_ldrag M (with_intpg K (Some g))) with (m_ldrag M K) in H1.
  change (m_cor M (with_intpg K (Some g))) with (m_cor M K) in H1.
  change (m_src M (with_intpg K (Some g))) with (m_src M K) in H1.
  assert (E0 : m_pressure M (with_intpg K None) psi = 0) by reflexivity.
  assert (E1 : m_pressure M (with_intpg K (Some g)) psi
     = - dx3 M (fun p => c0 (g p) * a_v (w_x psi) p + c1 (g p) * a_v (w_y psi) p)) by reflexivity.
  rewrite E0 in H0. rewrite E1 in H1. injection H0 as <-. injection H1 as <-. ring.
Qed.

(** Open lateral boundaries. Where the mean of the interior and the prescribed velocity points out
    of the domain, momentum leaves with the interior velocity whatever is prescribed; where
    it points in, the prescribed value is felt. *)
Theorem C60_open_boundary_upwind : forall K psi uv e b,
  m_bnd K (g_marker M e) = Some b ->
  let u := val_e uv e in
  let x := m_ext M b u e in
  let n := g_ne M e in
  let pair v := c0 v * a_e (w_x psi) e + c1 v * a_e (w_y psi) e in
  let through v := c0 v * c0 n + c1 v * c1 n in
  let mean := scal3 0.5 (add3 u x) in
  (0 < through mean -> m_lat M K psi uv e = pair u * through u)
  /\ (through mean < 0 -> m_lat M K psi uv e = pair u * through u + (pair x - pair u) * through mean).
Proof.
  intros K psi uv e b Hb u x n pair through mean. unfold m_lat. rewrite Hb. fold u. fold x. fold n. fold mean.
  change (c0 mean * c0 n + c1 mean * c1 n) with (through mean). unfold mupw, msgn.
  split; intro H; destruct (Rlt_dec 0 (through mean)); try lra; [|destruct (Rlt_dec (through mean) 0); try lra];
    unfold through, pair, sub3; cbn [c0 c1]; lra.
Qed.

(** Bottom friction acts on the total velocity: splitting off a depth average changes neither
    the coefficient nor the speed nor the velocity it is applied to. *)
Theorem C60_friction_total_velocity : forall K d psi u u_old,
  m_bfric M (with_dav K (Some d)) psi u u_old = m_bfric M (with_dav K None) psi (add_v u d) (add_v u_old d).
Proof. reflexivity. Qed.

(** With a given quadratic drag coefficient friction is always defined, whether or not a
    roughness length is given, and it is drag times speed times velocity. Without one it is
    defined exactly if the roughness length and the element height are known. *)
Theorem C60_friction_defined : forall K psi u u_old,
  m_friction K = true ->
  (m_bfric M K psi u u_old <> None <-> m_quad K <> None \/ (m_z0 K <> None /\ m_velem K <> None))
  /\ (forall d, m_quad K = Some d -> m_dav K = None ->
      m_bfric M K psi u u_old = Some (- ds_bottom M (fun e => d e * sqrt (a_e (w_x u_old) e ^ 2 + a_e (w_y u_old) e ^ 2)
          * (a_e (w_x psi) e * a_e (w_x u) e + a_e (w_y psi) e * a_e (w_y u) e)))).
Proof.
  intros K psi u u_old Hf. unfold m_bfric, m_drag, plus_dav. rewrite Hf. split.
  - destruct (m_quad K) as [d|]; [split; [intros _; left; discriminate|intros _; discriminate]|].
    destruct (m_z0 K) as [z|], (m_velem K) as [h|]; split; try discriminate; try (intros _; right; split; discriminate).
    + intro H. exfalso; apply H; reflexivity.
    + intros [H|[H1 H2]]; [exfalso; apply H; reflexivity|exfalso; apply H2; reflexivity].
    + intro H. exfalso; apply H; reflexivity.
    + intros [H|[H1 H2]]; [exfalso; apply H; reflexivity|exfalso; apply H1; reflexivity].
    + intro H. exfalso; apply H; reflexivity.
    + intros [H|[H1 H2]]; [exfalso; apply H; reflexivity|exfalso; apply H1; reflexivity].
  - intros d Hd Hn. rewrite Hd, Hn. reflexivity.
Qed.
End Mom.

(** The drag coefficient obtained from a roughness length is a pure number: it does not
    depend on the unit of length, and it is quadratic in the von Karman constant. *)
Theorem C60_drag_dimensionless : forall l k kappa h z0, 0 < l -> 0 < z0 -> 0 < h ->
  fit_drag kappa (l * h) (l * z0) = fit_drag kappa h z0
  /\ fit_drag (k * kappa) h z0 = k ^ 2 * fit_drag kappa h z0.
Proof.
  intros l k kappa h z0 Hl Hz Hh. unfold fit_drag. split.
  - assert (B : fit_b (l * h) (l * z0) = l * fit_b h z0).
    { unfold fit_b. replace ((l * h + l * z0) / (l * z0)) with ((h + z0) / z0) by (field; lra). ring. }
    rewrite B. f_equal. destruct (Req_dec (fit_b h z0) 0) as [E0|E0].
    + rewrite E0. rewrite Rmult_0_r. unfold Rdiv. rewrite Rinv_0. ring.
    + field. split; [exact E0|lra].
  - unfold Rdiv. ring.
Qed.

(** ** C61 *)

(** Every explicit 3D equation is assembled with the current velocity, its depth average,
    the vertical velocity, the mesh velocity, the elevation and the mesh. *)
Theorem C61_equations_read : forall k i f,
  In f [Uv3; Dav3; W; WMesh; Domain; Mesh] ->
  In f (ins (OPrep k i)) /\ In f (ins (OPredict k)) /\ In f (ins (OEvalRhs k)).
Proof.
  intros k i f H. assert (A : In f (eq_reads k)).
  { destruct k; cbn in H |- *; intuition. }
  cbn [ins]. repeat split; apply in_or_app; left; exact A.
Qed.

(** Everything that is advanced has been initialised: the 2D integrator, the explicit
    integrator of every equation, and every implicit one a step uses. *)
Theorem C61_all_initialised : forall o, In OInit2 (init_prog o)
  /\ (forall k, In k (equations o) -> In (OInitE k) (init_prog o))
  /\ (forall k, In (OImpl k) (rk_step o ++ lf_step o) -> In (OInitI k) (init_prog o)).
Proof.
  intro o.
  set (mem := fun x l => existsb (fun y => if op_eq_dec x y then true else false) l).
  assert (Hm : forall x l, mem x l = true -> In x l).
  { intros x l H. unfold mem in H. apply existsb_exists in H as (y & Hy & H). destruct (op_eq_dec x y) as [->|]; [exact Hy|discriminate]. }
  assert (C : mem OInit2 (init_prog o) && forallb (fun k => mem (OInitE k) (init_prog o)) (equations o)
     && forallb (fun x => match x with OImpl k => mem (OInitI k) (init_prog o) | _ => true end) (rk_step o ++ lf_step o) = true).
  { clear Hm. revert o. refine (for_all_opts_spec (fun o => _) _). vm_cast_no_check (eq_refl true). }
  apply andb_true_iff in C. destruct C as [C C3]. apply andb_true_iff in C. destruct C as [C1 C2].
  rewrite forallb_forall in C2, C3. split; [now apply Hm|split].
  - intros k H. apply Hm. exact (C2 k H).
  - intros k H. apply Hm. exact (C3 _ H).
Qed.

(** With turbulence, the eddy viscosity at the end of a step belongs to the turbulent
    quantities and the mesh at the end of the step: what it is computed from does not change
    any more. In the leap-frog integrator this needs implicit vertical diffusion. *)
Theorem C61_eddy_current : forall o, o_turb o = true ->
  let last p := exists a b, p = (a ++ OTurbPost :: b)%list
     /\ forall x f, In x b -> In f (outs x) -> ~ In f (ins OTurbPost) /\ f <> Eddy in
  last (rk_step o) /\ (o_impl o = true -> last (lf_step o)).
Proof.
  intros o Ht last.
  assert (T : exists a, turbulence o = (a ++ [OTurbPost])%list).
  { unfold turbulence. rewrite Ht. cbn [when]. eexists ([OTurbPre] ++ when (has_gls o) [OImpl KPsi] ++ when (has_gls o) [OImpl KTke])%list.
    rewrite <- !app_assoc. reflexivity. }
  destruct T as [a T].
  assert (L : forall A t, last t -> last (A ++ t)%list).
  { intros A t (x & y & -> & Hy). exists (A ++ x)%list, y. split; [now rewrite app_assoc|exact Hy]. }
  assert (B : forall b, (forall x f, In x b -> In f (outs x) -> ~ In f (ins OTurbPost) /\ f <> Eddy) -> last (turbulence o ++ b)%list).
  { intros b Hb. rewrite T. exists a, b. split; [rewrite <- app_assoc; reflexivity|exact Hb]. }
  split.
  - unfold rk_step. apply L. unfold rk_stage. cbv iota. do 12 (apply L). apply B.
    intros x f Hx Hf. unfold stabilization in Hx. destruct (o_smag o); [|destruct Hx]. destruct Hx as [<-|[]].
    destruct Hf as [<-|[]]. cbn. intuition discriminate.
  - intro Hi. unfold lf_step. rewrite Hi. do 20 (apply L). apply B.
    intros x f Hx Hf. rewrite !in_app_iff in Hx.
    unfold implicit_part, baroclinicity, stabilization in Hx.
    destruct (o_impl o), (o_baroc o), (o_smag o), (o_salt o), (o_temp o); cbn in Hx;
      repeat match type of Hx with _ \/ _ => destruct Hx as [Hx|Hx] end;
      try destruct Hx; subst; cbn in Hf |- *; intuition (subst; discriminate).
Qed.

(** Implicit vertical diffusion acts on the total velocity: the solver is given the sum of
    the deviation and the depth average, and the average is taken off its result again. *)
Theorem C61_implicit_total_velocity : forall den dt gamma o s, o_impl o = true ->
  let total := fun i => s Uv3 i + s Dav3 i in
  let s' := run den dt gamma (implicit_part o) s in
  (forall i, s' Uv3 i = den (OImpl KMom) [total; s Eddy; s Mesh; s Frc3] Uv3 i - s Dav3 i)
  /\ (forall i, s' Uv3 i + s' Dav3 i = den (OImpl KMom) [total; s Eddy; s Mesh; s Frc3] Uv3 i).
Proof.
  intros den dt gamma o s Hi total s'.
  assert (A : forall i, s' Uv3 i = den (OImpl KMom) [total; s Eddy; s Mesh; s Frc3] Uv3 i - s Dav3 i).
  { intro i. unfold s', implicit_part. rewrite Hi. destruct (o_salt o), (o_temp o); reflexivity. }
  assert (B : s' Dav3 = s Dav3).
  { unfold s', implicit_part. rewrite Hi. destruct (o_salt o), (o_temp o); reflexivity. }
  split; [exact A|]. intro i. rewrite A, B. ring.
Qed.

(** Half step of the leap-frog integrator: elevation and velocity of the 2D mode are taken at
    the same instant, (1/2 + 2 gamma) of the way from the old to the new state; in particular
    a state that does not change over the step is not changed by the combination. *)
Theorem C61_half_step : forall den dt gamma s,
  let s' := run den dt gamma [ODomOld; ODomHalf; OUvHalf] s in
  forall i,
  s' Domain i = s Domain i + (1/2 + 2 * gamma) * (s Elev2 i - s Domain i)
  /\ s' Uv2 i = s UvOld i + (1/2 + 2 * gamma) * (s Uv2 i - s UvOld i).
Proof.
  intros den dt gamma s s' i. unfold s', run, exec. cbn -[Rplus Rmult Rminus Rdiv Ropp IZR]. split; lra.
Qed.

(** The time step reaches the 2D integrator, the explicit integrator of every active
    equation and the implicit one of every equation that has one, and nothing else. *)
Definition eqn_name (k : eqn) : string :=
  match k with KSalt => "salt" | KTemp => "temp" | KPsi => "psi" | KTke => "tke" | KMom => "mom" end%string.
Theorem C61_set_dt_reaches : forall o n,
  In n (all_steppers o) <->
  n = "swe2d"%string
  \/ (exists k, In k (equations o) /\ n = (eqn_name k ++ "_expl")%string)
  \/ (exists k, In (OInitI k) (init_prog o) /\ n = (eqn_name k ++ "_impl")%string).
Proof.
  intros o n.
  set (smem := fun x l => existsb (fun y => if string_dec x y then true else false) l).
  assert (Sm : forall x l, smem x l = true <-> In x l).
  { intros x l. unfold smem. rewrite existsb_exists. split.
    - intros (y & Hy & H). destruct (string_dec x y) as [->|]; [exact Hy|discriminate].
    - intro H. exists x. split; [exact H|]. destruct (string_dec x x); [reflexivity|contradiction]. }
  set (spec := fun o => ("swe2d" :: map (fun k => eqn_name k ++ "_expl") (equations o)
     ++ flat_map (fun x => match x with OInitI k => [eqn_name k ++ "_impl"] | _ => [] end) (init_prog o))%string).
  assert (C : forallb (fun x => smem x (spec o)) (all_steppers o) && forallb (fun x => smem x (all_steppers o)) (spec o) = true).
  { clear Sm. revert o. refine (for_all_opts_spec (fun o => _) _). vm_cast_no_check (eq_refl true). }
  apply andb_true_iff in C. destruct C as [C1 C2]. rewrite forallb_forall in C1, C2.
  assert (A : In n (all_steppers o) <-> In n (spec o)).
  { split; intro H; apply Sm; auto. }
  rewrite A. unfold spec. cbn [In]. rewrite in_app_iff, in_map_iff, in_flat_map. split.
  - intros [<-|[(k & <- & Hk)|(x & Hx & H)]]; [auto|right; left; exists k; auto|].
    destruct x; try contradiction. destruct H as [<-|[]]. right; right. exists k. auto.
  - intros [->|[(k & Hk & ->)|(k & Hk & ->)]]; [auto|right; left; exists k; auto|].
    right; right. exists (OInitI k). split; [exact Hk|left; reflexivity].
Qed.

(** Hypotheses met. *)
Section Examples.
Let M2 : mesh3 bool unit nat :=
  mk_mesh3 [false; true] (fun _ => 10) [] [tt] (fun _ => 3) (fun _ => V3 (-1) 0 0)
    [2%nat] [3%nat] [0%nat; 1%nat] (fun _ => 3)
    (fun n => match n with 0%nat => V3 (-1) 0 0 | 1%nat => V3 1 0 0 | 2%nat => V3 0 0 1 | _ => V3 0 0 (-1) end) (fun n => n).
Let K2 (q z h : option (nat -> R)) : menv3 bool unit nat :=
  mk_menv3 true true true (Some 1) None (Some (const3 0)) None None None (fun _ _ => 1) (fun _ _ => 1) 1 1
    true q z h (2/5) None None None 1000 None None
    (fun n => match n with 0%nat | 1%nat => Some (MUv (fun _ => V3 2 0 0)) | _ => None end) 0.
Let u2 : vfield3 bool unit nat := mk_vf3 (const3 1) (const3 0) (const3 0).
(** prescribed 2 m/s at both ends, water moving at 1 m/s: felt on the left (inflow, mean
    3/2), ignored on the right *)
Example open_boundary_example : m_lat M2 (K2 None None None) u2 u2 1%nat = 1
  /\ m_lat M2 (K2 None None None) u2 u2 0%nat = - 1 - 3/2.
Proof.
  split.
  - destruct (C60_open_boundary_upwind M2 (K2 None None None) u2 u2 1%nat (MUv (fun _ => V3 2 0 0)) eq_refl) as [H _].
    etransitivity; [apply H|]; cbn -[Rplus Rmult Rminus Rdiv Ropp IZR]; lra.
  - destruct (C60_open_boundary_upwind M2 (K2 None None None) u2 u2 0%nat (MUv (fun _ => V3 2 0 0)) eq_refl) as [_ H].
    etransitivity; [apply H|]; cbn -[Rplus Rmult Rminus Rdiv Ropp IZR]; lra.
Qed.
Example friction_example : m_bfric M2 (K2 None (Some (fun _ => 1)) None) u2 u2 u2 = None
  /\ m_bfric M2 (K2 (Some (fun _ => 1/100)) None None) u2 u2 u2 <> None.
Proof.
  split; [reflexivity|]. apply C60_friction_defined; [reflexivity|]. left. discriminate.
Qed.
(** a head falling to the right accelerates the water to the right *)
Example pressure_example : forall r0 r1,
  mom_residual M2 (with_intpg (K2 (Some (fun _ => 0)) None None) None) u2 u2 u2 = Some r0 ->
  mom_residual M2 (with_intpg (K2 (Some (fun _ => 0)) None None) (Some (fun _ => V3 (-1) 0 0))) u2 u2 u2 = Some r1 -> r1 = r0 + 20.
Proof.
  intros r0 r1 H0 H1. rewrite (C60_pressure_force M2 _ _ u2 u2 u2 r0 r1 H0 H1).
  unfold dx3, integral. cbn -[Rplus Rmult Rminus Rdiv Ropp IZR]. lra.
Qed.
Example drag_example : fit_drag (2/5) (1000 * 3) (1000 * (1/10)) = fit_drag (2/5) 3 (1/10).
Proof. apply (C60_drag_dimensionless 1000 1); lra. Qed.
Let o2 : copt := Build_copt true true true true true true true true true true true true true.
Example eddy_example : o_turb o2 = true /\ o_impl o2 = true /\ In (OImpl KTke) (rk_step o2).
Proof. repeat split. cbn. intuition. Qed.
End Examples.
Print Assumptions C59_source_budget.
Print Assumptions C60_pressure_force.
Print Assumptions C60_open_boundary_upwind.
Print Assumptions C60_friction_total_velocity.
Print Assumptions C60_friction_defined.
Print Assumptions C60_drag_dimensionless.
Print Assumptions C61_equations_read.
Print Assumptions C61_all_initialised.
Print Assumptions C61_eddy_current.
Print Assumptions C61_implicit_total_velocity.
Print Assumptions C61_half_step.
Print Assumptions C61_set_dt_reaches.
