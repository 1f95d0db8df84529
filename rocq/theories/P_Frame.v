(** C89: results do not depend on the coordinate axes, on the naming of the sides of the
    facets or on the order (numbering, partition) in which the mesh is visited. *)
From Coq Require Import Reals List String Bool Arith Lia Lra Permutation FunctionalExtensionality.
From Verif Require Import Forms_Model Forms_Spec Forms_Proofs Forms_Examples P_SWE P_Tracer2d P_Tracer2d_Examples
  TimeInt_Model Galerkin_Model P_Galerkin Frame_Spec Frame_Proofs.
Import ListNotations.
Open Scope R_scope.

Section C89.
Context {V F B : Type}.
Variable w : view V F B.
Hypothesis Hw : proper w.

(** ** Shallow water *)
Theorem C89_momentum : forall (E : swe_env V F B) psi uv eta uv_old eta_old,
  momentum_residual (turn_env w E) (turn_v w psi) (turn_v w uv) (turn_s w eta) (turn_v w uv_old) (turn_s w eta_old)
  = momentum_residual E psi uv eta uv_old eta_old.
Proof. intros. apply turn_momentum, Hw. Qed.

Theorem C89_split_momentum : forall (E : swe_env V F B) psi uv eta eta_old,
  split_momentum_residual (turn_env w E) (turn_v w psi) (turn_v w uv) (turn_s w eta) (turn_s w eta_old)
  = split_momentum_residual E psi uv eta eta_old.
Proof. intros. apply turn_split, Hw. Qed.

Theorem C89_continuity : forall (E : swe_env V F B) phi uv eta uv_old eta_old div_hu,
  continuity_residual (turn_env w E) (turn_s w phi) (turn_v w uv) (turn_s w eta) (turn_v w uv_old) (turn_s w eta_old) div_hu
  = continuity_residual E phi uv eta uv_old eta_old div_hu.
Proof. intros. apply turn_continuity, Hw. Qed.

(** ** Tracers *)
Theorem C89_tracer : forall (E : swe_env V F B) (T : tracer_env V F B) phi c uv elev gext,
  upwind_clear w E T uv ->
  let E' := turn_env w E in let T' := turn_tenv w T in
  tracer_advection E' T' (turn_s w phi) (turn_s w c) (turn_v w uv) (turn_s w elev) = tracer_advection E T phi c uv elev /\
  cons_advection E' T' (turn_s w phi) (turn_s w c) (turn_v w uv) (turn_s w elev) = cons_advection E T phi c uv elev /\
  tracer_diffusion E' T' (turn_s w phi) (turn_s w c) (turn_v w uv) (turn_s w elev) (fun b => act (w_q w) (gext b))
  = tracer_diffusion E T phi c uv elev gext /\
  tracer_source E' T' (turn_s w phi) = tracer_source E T phi /\
  cons_source E' T' (turn_s w phi) (turn_s w elev) = cons_source E T phi elev.
Proof.
  intros. split; [apply turn_tadv; assumption|]. split; [apply turn_cons; assumption|]. split; [apply turn_tdiff, Hw|].
  split; [apply turn_tsource, Hw|apply turn_csource, Hw].
Qed.

(** The Lax-Friedrichs speed of a tracer does not depend on them either. *)
Theorem C89_tracer_speed : forall (E : swe_env V F B) uv f,
  Rabs (un_av (turn_env w E) (turn_v w uv) f) = Rabs (un_av E uv f).
Proof.
  intros. rewrite (turn_un w Hw). destruct (w_swap w f); [apply Rabs_Ropp|reflexivity].
Qed.

(** ** Integrals of the solution: volume, kinetic energy, tracer content *)
Theorem C89_diagnostics : forall (E : swe_env V F B) uv eta c,
  let E' := turn_env w E in
  dx (e_mesh E') (hv E' (turn_s w eta)) = dx (e_mesh E) (hv E eta) /\
  dx (e_mesh E') (fun p => hv E' (turn_s w eta) p * dot2 (vv (turn_v w uv) p) (vv (turn_v w uv) p))
  = dx (e_mesh E) (fun p => hv E eta p * dot2 (vv uv p) (vv uv p)) /\
  dx (e_mesh E') (fun p => hv E' (turn_s w eta) p * s_v (turn_s w c) p) = dx (e_mesh E) (fun p => hv E eta p * s_v c p) /\
  ds (e_mesh E') (unb (e_mesh E') (turn_v w uv)) = ds (e_mesh E) (unb (e_mesh E) uv).
Proof.
  intros. unfold E'. change (e_mesh (turn_env w E)) with (turn_mesh w (e_mesh E)).
  split; [apply (turn_dx w Hw); reflexivity|]. split.
  - apply (turn_dx w Hw). intros p _. rewrite turn_vv, (act_dot _ (HQ w Hw)). reflexivity.
  - split; [apply (turn_dx w Hw); reflexivity|]. apply (turn_ds w Hw). intros b _. apply (turn_unb w Hw).
Qed.

(** ** Assembled systems *)
Theorem C89_swe_assembled : forall (W : space) (M : mesh V F B) (E : swe_env V F B) dh disp,
  swe_vector (turn_space w W) (turn_env w E) dh = swe_vector W E dh /\
  swe_mass (turn_space w W) (turn_mesh w M) disp = swe_mass W M disp.
Proof.
  intros W M E dh disp. split; repeat (apply functional_extensionality; intro).
  - unfold swe_vector. rewrite !turn_uv_of, !turn_eta_of. cbn [turn_space n_eta n_uv phi psi].
    destruct x1; [rewrite (turn_momentum w Hw)|rewrite (turn_continuity w Hw)]; reflexivity.
  - unfold swe_mass. rewrite !turn_uv_of, !turn_eta_of. cbn [turn_space n_eta n_uv phi psi]. destruct x0 as [n|n].
    + destruct (Nat.ltb n (n_uv W)); [|reflexivity]. apply (turn_dx w Hw). intros p _. rewrite !turn_vv. apply act_dot, Hw.
    + destruct (Nat.ltb n (n_eta W)); [|reflexivity]. f_equal; apply (turn_dx w Hw); reflexivity.
Qed.

(** the same tracer problem in the other description *)
Definition turn_case (k : @tcase V F B) : tcase :=
  mk_tcase (turn_env w (tc_E k)) (turn_tenv w (tc_T k)) (turn_v w (tc_uv k)) (turn_s w (tc_elev k))
           (fun b => act (w_q w) (tc_gext k b)).

Theorem C89_tracer_assembled : forall (W : tspace) (M : mesh V F B) k conservative,
  upwind_clear w (tc_E k) (tc_T k) (tc_uv k) ->
  tvec (turn_tspace w W) conservative (turn_case k) = tvec W conservative k /\
  tracer_mass (turn_tspace w W) (turn_mesh w M) = tracer_mass W M.
Proof.
  intros W M k cons HU. split; repeat (apply functional_extensionality; intro).
  - unfold tvec, tracer_vector. rewrite !turn_tracer_of. cbn [turn_tspace n_c chi turn_case tc_E tc_T tc_uv tc_elev tc_gext].
    rewrite (turn_tdiff w Hw), (turn_tsource w Hw), (turn_csource w Hw), (turn_tadv w Hw), (turn_cons w Hw) by exact HU. reflexivity.
  - unfold tracer_mass. rewrite !turn_tracer_of. cbn [turn_tspace n_c chi].
    destruct (Nat.ltb x0 (n_c W)); [|reflexivity]. apply (turn_dx w Hw). reflexivity.
Qed.

(** ** Whole runs: the coefficients of the solution are the same after any number of steps *)
Section Runs.
Context {Val Bd : Type}.

Theorem C89_swe_run : forall (W : space) (M : mesh V F B) dh disp
  (Env : (string -> option Val) -> (string -> option Val) -> Bd -> swe_env V F B)
  keys kind solve dt uf theta semi ts (s : @tst dof Val Bd),
  fold_left (fun s t => cn_advance keys kind (Res (turn_space w W) dh (fun f fo b => turn_env w (Env f fo b)))
                          (swe_mass (turn_space w W) (turn_mesh w M) disp) solve dt uf theta semi t s) ts s
  = fold_left (fun s t => cn_advance keys kind (Res W dh Env) (swe_mass W M disp) solve dt uf theta semi t s) ts s.
Proof.
  intros W M dh disp Env keys kind solve dt uf theta semi ts s.
  assert (HR : Res (turn_space w W) dh (fun f fo b => turn_env w (Env f fo b)) = Res W dh Env).
  { unfold Res. repeat (apply functional_extensionality; intro).
    rewrite (proj1 (C89_swe_assembled W M (Env x1 x2 x3) dh disp)). reflexivity. }
  assert (HM : swe_mass (turn_space w W) (turn_mesh w M) disp = swe_mass W M disp).
  { unfold swe_mass. repeat (apply functional_extensionality; intro). rewrite !turn_uv_of, !turn_eta_of.
    cbn [turn_space n_eta n_uv phi psi]. destruct x0 as [n|n].
    - destruct (Nat.ltb n (n_uv W)); [|reflexivity]. apply (turn_dx w Hw). intros p _. rewrite !turn_vv. apply act_dot, Hw.
    - destruct (Nat.ltb n (n_eta W)); [|reflexivity]. f_equal; apply (turn_dx w Hw); reflexivity. }
  rewrite HR, HM. reflexivity.
Qed.

Theorem C89_tracer_run : forall (W : tspace) (M : mesh V F B) conservative
  (case : (string -> option Val) -> (string -> option Val) -> Bd -> tcase)
  keys kind solve dt uf theta semi ts (s : @tst nat Val Bd),
  (forall f fo b, upwind_clear w (tc_E (case f fo b)) (tc_T (case f fo b)) (tc_uv (case f fo b))) ->
  fold_left (fun s t => cn_advance keys kind (TRes (turn_tspace w W) (fun f fo b => turn_case (case f fo b)) conservative)
                          (tracer_mass (turn_tspace w W) (turn_mesh w M)) solve dt uf theta semi t s) ts s
  = fold_left (fun s t => cn_advance keys kind (TRes W case conservative) (tracer_mass W M) solve dt uf theta semi t s) ts s.
Proof.
  intros W M cons case keys kind solve dt uf theta semi ts s HU.
  assert (HR : TRes (turn_tspace w W) (fun f fo b => turn_case (case f fo b)) cons = TRes W case cons).
  { unfold TRes. repeat (apply functional_extensionality; intro).
    rewrite (proj1 (C89_tracer_assembled W M (case x1 x2 x3) cons (HU x1 x2 x3))). reflexivity. }
  assert (HM : tracer_mass (turn_tspace w W) (turn_mesh w M) = tracer_mass W M).
  { unfold tracer_mass. repeat (apply functional_extensionality; intro). rewrite !turn_tracer_of. cbn [turn_tspace n_c chi].
    destruct (Nat.ltb x0 (n_c W)); [|reflexivity]. apply (turn_dx w Hw). reflexivity. }
  rewrite HR, HM. reflexivity.
Qed.
End Runs.
End C89.

(** Any other integrator, as a function of the assembled residual and mass. *)
Theorem C89_any_integrator : forall {V F B Result} (w : view V F B) (W : space) M E dh disp
  (integrate : ((dof -> R) -> (dof -> R) -> dof -> R) -> ((dof -> R) -> dof -> R) -> Result), proper w ->
  integrate (swe_vector (turn_space w W) (turn_env w E) dh) (swe_mass (turn_space w W) (turn_mesh w M) disp)
  = integrate (swe_vector W E dh) (swe_mass W M disp).
Proof.
  intros V F B Result w W M E dh disp integrate Hw. destruct (C89_swe_assembled w Hw W M E dh disp) as [-> ->]. reflexivity.
Qed.

(** ** Order and partition alone *)
(** The same points in another order, with everything else the same. *)
Definition reordered {V F B} (M M' : mesh V F B) : Prop :=
  Permutation (m_cells M') (m_cells M) /\ Permutation (m_facets M') (m_facets M) /\ Permutation (m_bnds M') (m_bnds M) /\
  m_wv M' = m_wv M /\ m_wf M' = m_wf M /\ m_nf M' = m_nf M /\ m_wb M' = m_wb M /\ m_nb M' = m_nb M /\ m_marker M' = m_marker M.

Theorem C89_order : forall {V F B} (M M' : mesh V F B) g h k, reordered M M' ->
  dx M' g = dx M g /\ dS M' h = dS M h /\ ds M' k = ds M k.
Proof.
  intros V F B M M' g h k (P1 & P2 & P3 & E1 & E2 & _ & E3 & _). unfold dx, dS, ds. rewrite E1, E2, E3.
  repeat split; apply integral_perm; assumption.
Qed.

(** A mesh shared out among processes: the sum of what they find is the integral. *)
Theorem C89_partition : forall {X} (points : list X) (parts : list (list X)) weight g,
  Permutation (List.concat parts) points ->
  fold_right Rplus 0 (map (fun part => integral part weight g) parts) = integral points weight g.
Proof.
  intros X points parts weight g HP. rewrite <- (integral_perm _ _ weight g HP). clear HP points.
  induction parts as [|p r IH]; [reflexivity|]. cbn [map fold_right List.concat]. rewrite IH.
  unfold integral. induction p as [|x p IHp]; cbn [fold_right app]; [ring|]. rewrite <- IHp. ring.
Qed.

(* ------------------------------------------------------------------ *)
(** * The upwind tracer where the mean normal velocity is zero *)

(** One facet between two cells; water leaves it on both sides, so that the mean
    normal velocity is zero. *)
Definition apart : vfield nat nat nat := mk_vf (p0 (two 1 (-1))) (p0 (fun _ => 0)).
Definition swap_sides : view nat nat nat :=
  mk_view (mk_axes 1 0 0 1) (fun _ => true) (fun l => l) (fun l => l) (fun l => l).
Lemma swap_proper : proper swap_sides.
Proof. split; [|repeat split; intro; apply Permutation_refl]. repeat split; cbn; ring. Qed.

Definition tr_with (s0 : R) : tracer_env nat nat nat := mk_tenv true None (fun _ => None) None (fun _ _ => 0) None s0.

(** If sign(0) is not 0, the tracer depends on which side of the facet is called '+'. *)
Theorem C89_still_facet_refuted : forall s0, s0 <> 0 ->
  exists (w : view nat nat nat) E phi c uv elev, proper w /\ un_av E uv 0%nat = 0 /\
    tracer_advection (turn_env w E) (turn_tenv w (tr_with s0)) (turn_s w phi) (turn_s w c) (turn_v w uv) (turn_s w elev)
    <> tracer_advection E (tr_with s0) phi c uv elev.
Proof.
  intros s0 H0. exists swap_sides, basin, (p0 (two 1 0)), (p0 (two 3 5)), apart, (const_s 0).
  split; [exact swap_proper|].
  assert (Z : un_av basin apart 0%nat = 0).
  { unfold un_av, avg_v, avg, dot2, normal, apart, p0, affine, two. cbn -[Rplus Rmult Rminus Rdiv Ropp Rinv IZR]. lra. }
  split; [exact Z|].
  assert (Z' : un_av (turn_env swap_sides basin) (turn_v swap_sides apart) 0%nat = 0).
  { rewrite (turn_un swap_sides swap_proper), Z. cbn. lra. }
  unfold tracer_advection. change (t_bnd (turn_tenv swap_sides (tr_with s0))) with (fun _ : nat => @None (@tbnd nat)).
  cbn [t_bnd tr_with t_dg t_lax turn_tenv]. unfold dS at 1 2.
  change (e_mesh (turn_env swap_sides basin)) with (turn_mesh swap_sides two_cells).
  change (m_facets (turn_mesh swap_sides two_cells)) with [0%nat]. change (e_mesh basin) with two_cells. change (m_facets two_cells) with [0%nat].
  unfold integral at 1 2; cbn [fold_right]. rewrite Z, Z'.
  rewrite (turn_dx swap_sides swap_proper two_cells _
    (fun p => (s_v (p0 (two 1 0)) p * divv apart p + dot2 (vv apart p) (s_gv (p0 (two 1 0)) p)) * s_v (p0 (two 3 5)) p)).
  2:{ intros p _. rewrite (turn_div swap_sides swap_proper), turn_vv. cbn [turn_s s_v s_gv].
      rewrite (act_dot _ (HQ _ swap_proper)). reflexivity. }
  rewrite (turn_ds swap_sides swap_proper two_cells _
    (fun b => s_b (p0 (two 3 5)) b * (unb two_cells apart b * s_b (p0 (two 1 0)) b))).
  2:{ intros b _. rewrite (turn_unb swap_sides swap_proper). cbn [turn_s s_b]. ring. }
  set (A := dx _ _). set (D := ds _ _).
  match goal with |- context [ds two_cells ?g] => set (D' := ds two_cells g) end.
  assert (ED : D' = D).
  { unfold D', D. apply integral_ext. intros b _. ring. }
  rewrite ED. clearbody A D. clear ED D'.
  unfold up_s, sign. cbn [tr_with t_sign0 turn_tenv].
  destruct (Rlt_dec 0 0) as [HL|_]; [lra|].
  unfold apart, p0, affine, two, dot2, normal, vf, turn_mesh, turn_v, turn_s, old.
  cbn -[Rplus Rmult Rminus Rdiv Ropp Rinv IZR]. intro H. apply H0. lra.
Qed.

(* ------------------------------------------------------------------ *)
(** * Example: the basin of C49 seen by an observer facing another way *)

(** axes turned (cosine 3/5), sides of every facet swapped, everything visited backwards *)
Definition sideways : view nat nat nat :=
  mk_view (mk_axes (3/5) (-4/5) (4/5) (3/5)) (fun _ => true) (@rev nat) (@rev nat) (@rev nat).
Example sideways_proper : proper sideways.
Proof.
  split; [repeat split; cbn; field|]. repeat split; intro l; apply Permutation_sym, Permutation_rev.
Qed.
Example C89_example : forall dh,
  swe_vector (turn_space sideways cells2) (turn_env sideways basin) dh moving moving (ETA 0)
  = swe_vector cells2 basin dh moving moving (ETA 0) /\
  vv (uv_of cells2 moving) 0%nat = (1, 0) /\
  vv (uv_of (turn_space sideways cells2) moving) 0%nat = (3/5, 4/5) /\
  m_nf two_cells 0%nat = (1, 0) /\ m_nf (turn_mesh sideways two_cells) 0%nat = (-3/5, -4/5) /\
  upwind_clear sideways basin closed_tr through.
Proof.
  intro dh. split; [rewrite (proj1 (C89_swe_assembled sideways sideways_proper cells2 two_cells basin dh (fun _ _ => 0))); reflexivity|].
  split; [|split; [|split; [reflexivity|split]]].
  - unfold vv, uv_of, moving, unit_of. cbn -[Rplus Rmult Rminus Rdiv Ropp Rinv IZR]. f_equal; lra.
  - rewrite turn_uv_of, turn_vv. unfold vv, uv_of, moving, unit_of. cbn -[Rplus Rmult Rminus Rdiv Ropp Rinv IZR]. unfold act; cbn [qa qb qc qd fst snd]; f_equal; field.
  - unfold turn_mesh, m_nf, old, sideways, act, normal; cbn [w_q w_swap xorb qa qb qc qd two_cells m_nf fst snd]. f_equal; field.
  - right. intros f [<-|[]] _. left. unfold un_av, avg_v, avg, dot2, normal, through. cbn -[Rplus Rmult Rminus Rdiv Ropp Rinv IZR].
    intro H. lra.
Qed.
Example C89_partition_example : integral [1; 2; 3]%nat (fun _ => 1) INR = integral [2]%nat (fun _ => 1) INR + (integral [3; 1]%nat (fun _ => 1) INR + 0).
Proof.
  symmetry. refine (C89_partition [1; 2; 3]%nat [[2]; [3; 1]]%nat (fun _ => 1) INR _).
  cbn. apply Permutation_sym. change [1; 2; 3]%nat with ([1] ++ [2; 3])%nat. apply Permutation_cons_append.
Qed.

Print Assumptions C89_momentum.
Print Assumptions C89_split_momentum.
Print Assumptions C89_continuity.
Print Assumptions C89_tracer.
Print Assumptions C89_tracer_speed.
Print Assumptions C89_diagnostics.
Print Assumptions C89_swe_assembled.
Print Assumptions C89_tracer_assembled.
Print Assumptions C89_swe_run.
Print Assumptions C89_tracer_run.
Print Assumptions C89_any_integrator.
Print Assumptions C89_order.
Print Assumptions C89_partition.
Print Assumptions C89_still_facet_refuted.
