(** C89 in three dimensions: the 3D tracer and momentum equations, the vertical velocity and
    the internal pressure gradient do not depend on the horizontal axes, the naming of the
    sides of facets or the order in which the mesh is visited. *)
From Coq Require Import Reals List Bool Arith Lra Permutation FunctionalExtensionality.
From Verif Require Import TimeInt_Model RK_Model Frame_Spec Forms_Model Forms3d_Model Forms3d_Spec Mom3d_Model Galerkin3d_Model
  Frame_Proofs Frame3d_Spec Frame3d_Proofs.
Import ListNotations.
Open Scope R_scope.

Section C89.
Context {V F E : Type}.
Variable w : view V F E.
Hypothesis Hw : proper w.

(** In the program the third component of the horizontal velocity is zero, so sign(0) does
    not matter here (unlike in 2D, C89_still_facet_refuted): the code upwinds with the
    average velocity on both sides of a facet. *)
Theorem C89_tracer_3d : forall (M : mesh3 V F E) (K : tenv3 V F E) phi c, horizontal_uv K ->
  tracer_residual3 (turn_mesh3 w M) (turn_tenv3 w K) (turn_s3 w phi) (turn_s3 w c) = tracer_residual3 M K phi c.
Proof. intros. apply t_residual3; assumption. Qed.

Theorem C89_momentum_3d : forall (M : mesh3 V F E) (K : menv3 V F E) psi u u_old,
  mom_residual (turn_mesh3 w M) (turn_menv w K) (turn_v3 w psi) (turn_v3 w u) (turn_v3 w u_old) = mom_residual M K psi u u_old.
Proof. intros. apply t_mom, Hw. Qed.

Theorem C89_vertical_velocity : forall (M : mesh3 V F E) open_bnd phi uv v,
  (w_lhs (turn_mesh3 w M) (turn_s3 w phi) (turn_s3 w v) = w_rhs (turn_mesh3 w M) open_bnd (turn_s3 w phi) (turn_v3 w uv))
  <-> (w_lhs M phi v = w_rhs M open_bnd phi uv).
Proof. intros. rewrite (t_w_lhs w Hw), (t_w_rhs w Hw). reflexivity. Qed.

(** The internal pressure gradient solves  dx(dot(g, psi)) = rhs(psi); seen in the other
    description the same vector solves it. *)
Theorem C89_internal_pressure : forall (M : mesh3 V F E) grav scalar by_parts ext r psi g,
  (dx3 (turn_mesh3 w M) (fun p => dot3 (val_v (turn_v3 w g) p) (val_v (turn_v3 w psi) p))
   = ipg_rhs (turn_mesh3 w M) grav scalar by_parts ext (turn_s3 w r) (turn_v3 w psi))
  <-> (dx3 M (fun p => dot3 (val_v g p) (val_v psi p)) = ipg_rhs M grav scalar by_parts ext r psi).
Proof.
  intros. rewrite (t_ipg w Hw). rewrite (t_dx w Hw M _ (fun p => dot3 (val_v g p) (val_v psi p))); [reflexivity|].
  intro p. rewrite !t_val_v. apply act_dot3, Hw.
Qed.

(** ** Assembled, and in time *)
Lemma comb3_turn : forall n c (f : nat -> sfield3 V F E), turn_s3 w (comb3 n c f) = comb3 n c (fun i => turn_s3 w (f i)).
Proof.
  intros n c f. induction n as [|n IH]; cbn [comb3].
  - unfold turn_s3, const3; cbn [a_v a_gv a_f a_gf a_e a_ge]. f_equal; repeat (apply functional_extensionality; intro);
      apply v3_ext; cbn; ring.
  - rewrite <- IH, <- add_turn_s. f_equal. unfold turn_s3, scale3; cbn [a_v a_gv a_f a_gf a_e a_ge].
    f_equal; repeat (apply functional_extensionality; intro); symmetry; apply a3_scal.
Qed.

Section Time.
Context {Geo : Type}.
Variable mesh_of : Geo -> mesh3 V F E.
Variable n : nat.
Variable basis : Geo -> nat -> sfield3 V F E.
Let mesh' (g : Geo) : mesh3 V F E := turn_mesh3 w (mesh_of g).
Let basis' (g : Geo) (i : nat) : sfield3 V F E := turn_s3 w (basis g i).

Lemma vector_turn : forall g K c, horizontal_uv K ->
  tracer3_vector mesh' n basis' g (turn_tenv3 w K) c = tracer3_vector mesh_of n basis g K c.
Proof.
  intros g K c HK. apply functional_extensionality. intro i. unfold tracer3_vector, tracer3_of. destruct (Nat.ltb i n); [|reflexivity].
  unfold mesh', basis' at 1. change (comb3 n c (basis' g)) with (comb3 n c (fun i => turn_s3 w (basis g i))).
  rewrite <- comb3_turn. apply t_residual3; assumption.
Qed.
Lemma mass_turn : tracer3_mass mesh' n basis' = tracer3_mass mesh_of n basis.
Proof.
  repeat (apply functional_extensionality; intro). unfold tracer3_mass, tracer3_of. destruct (Nat.ltb x1 n); [|reflexivity].
  unfold mesh'. change (comb3 n x0 (basis' x)) with (comb3 n x0 (fun i => turn_s3 w (basis x i))). rewrite <- comb3_turn.
  apply (t_dx w Hw). reflexivity.
Qed.

Theorem C89_tracer_3d_assembled : forall g K c i, horizontal_uv K ->
  tracer3_vector mesh' n basis' g (turn_tenv3 w K) c i = tracer3_vector mesh_of n basis g K c i /\
  tracer3_mass mesh' n basis' g c i = tracer3_mass mesh_of n basis g c i.
Proof. intros. rewrite vector_turn, mass_turn by assumption. split; reflexivity. Qed.

(** A run on a moving mesh with the two-stage scheme SSPRK22ALE or with LeapFrogAM3:
    the coefficients of the tracer are the same at the end. *)
Variable msolve : Geo -> (nat -> R) -> nat -> R.
Variable dt : R.
Variable uf uf' : option (R -> tenv3 V F E -> tenv3 V F E).
(** the forcings are updated in the same way *)
Hypothesis Huf : forall t K, horizontal_uv K ->
  horizontal_uv (force uf t K) /\ force uf' t (turn_tenv3 w K) = turn_tenv3 w (force uf t K).

Local Notation ast := (ast (D:=nat) (Geo:=Geo) (Env:=tenv3 V F E)).
Definition turn_state (s : ast) : ast :=
  mk_ast (asol s) (amu s) (amu_old s) (aold s) (ageo s) (turn_tenv3 w (aenv s)).

Notation mass := (tracer3_mass mesh_of n basis).
Notation Resg := (tracer3_vector mesh_of n basis).
Notation mass' := (tracer3_mass mesh' n basis').
Notation Resg' := (tracer3_vector mesh' n basis').

Lemma force_turn : forall t (s : ast), horizontal_uv (aenv s) ->
  ale_force uf' t (turn_state s) = turn_state (ale_force uf t s) /\ horizontal_uv (aenv (ale_force uf t s)).
Proof.
  intros t s Hs. destruct (Huf t _ Hs) as [H1 E1]. unfold ale_force, turn_state; cbn [asol amu amu_old aold ageo aenv].
  rewrite E1. split; [reflexivity|exact H1].
Qed.
Lemma prep_turn : forall i t (s : ast), horizontal_uv (aenv s) ->
  ale_prepare_stage mass' Resg' dt uf' i t (turn_state s) = turn_state (ale_prepare_stage mass Resg dt uf i t s) /\
  horizontal_uv (aenv (ale_prepare_stage mass Resg dt uf i t s)).
Proof.
  intros i t s Hs. unfold ale_prepare_stage. cbv zeta. set (t' := t + (if Nat.eqb i 0 then 0 else 1) * dt).
  destruct (force_turn t' s Hs) as [E1 H1]. rewrite E1. set (a := ale_force uf t' s) in *. clearbody a. rewrite mass_turn.
  destruct (Nat.eqb i 0); (split; [|exact H1]); unfold ale_stage_one_prep, ale_stage_two_prep, turn_state; cbn [asol amu amu_old aold ageo aenv];
    rewrite vector_turn by exact H1; reflexivity.
Qed.
Lemma ale_one : forall g1 g2 t (s : ast), horizontal_uv (aenv s) ->
  ale_step mass' Resg' msolve dt uf' g1 g2 t (turn_state s) = turn_state (ale_step mass Resg msolve dt uf g1 g2 t s) /\
  horizontal_uv (aenv (ale_step mass Resg msolve dt uf g1 g2 t s)).
Proof.
  intros g1 g2 t s Hs. unfold ale_step. cbv zeta.
  destruct (prep_turn 0 t s Hs) as [E1 H1]. rewrite E1. set (a := ale_prepare_stage mass Resg dt uf 0 t s) in *. clearbody a. clear E1.
  change (ale_stage_solve msolve (ale_move g1 (turn_state a))) with (turn_state (ale_stage_solve msolve (ale_move g1 a))).
  assert (H1' : horizontal_uv (aenv (ale_stage_solve msolve (ale_move g1 a)))) by exact H1.
  set (b := ale_stage_solve msolve (ale_move g1 a)) in *. clearbody b.
  destruct (prep_turn 1 t b H1') as [E2 H2]. rewrite E2. split; [reflexivity|exact H2].
Qed.
Lemma predict_turn : forall (s : ast), horizontal_uv (aenv s) ->
  lf_predict mass' Resg' msolve dt (turn_state s) = turn_state (lf_predict mass Resg msolve dt s).
Proof.
  intros s Hs. rewrite mass_turn. unfold lf_predict, turn_state; cbn [asol amu amu_old aold ageo aenv].
  rewrite vector_turn by exact Hs. reflexivity.
Qed.
Lemma eval_turn : forall (s : ast), horizontal_uv (aenv s) ->
  lf_eval_rhs Resg' dt (turn_state s) = turn_state (lf_eval_rhs Resg dt s).
Proof.
  intros s Hs. unfold lf_eval_rhs, turn_state; cbn [asol amu amu_old aold ageo aenv]. rewrite vector_turn by exact Hs. reflexivity.
Qed.
Lemma lf_one : forall g1 t (s : ast), horizontal_uv (aenv s) ->
  lf_step mass' Resg' msolve dt uf' g1 t (turn_state s) = turn_state (lf_step mass Resg msolve dt uf g1 t s) /\
  horizontal_uv (aenv (lf_step mass Resg msolve dt uf g1 t s)).
Proof.
  intros g1 t s Hs. unfold lf_step. cbv zeta. destruct (force_turn (t + dt) s Hs) as [E1 H1]. rewrite E1.
  set (a := ale_force uf (t + dt) s) in *. clearbody a. rewrite (predict_turn a H1).
  assert (H2 : horizontal_uv (aenv (lf_predict mass Resg msolve dt a))) by exact H1.
  set (b := lf_predict mass Resg msolve dt a) in *. clearbody b. rewrite (eval_turn b H2).
  split; [reflexivity|exact H2].
Qed.

Theorem C89_tracer_3d_run : forall (steps : list (Geo * Geo * R)) (lsteps : list (Geo * R)) (s : ast), horizontal_uv (aenv s) ->
  asol (fold_left (fun s x => ale_step mass' Resg' msolve dt uf' (fst (fst x)) (snd (fst x)) (snd x) s) steps (turn_state s))
  = asol (fold_left (fun s x => ale_step mass Resg msolve dt uf (fst (fst x)) (snd (fst x)) (snd x) s) steps s) /\
  asol (fold_left (fun s x => lf_step mass' Resg' msolve dt uf' (fst x) (snd x) s) lsteps (turn_state s))
  = asol (fold_left (fun s x => lf_step mass Resg msolve dt uf (fst x) (snd x) s) lsteps s).
Proof.
  intros steps lsteps s Hs. split.
  - revert s Hs. induction steps as [|x r IH]; intros s Hs; [reflexivity|]. cbn [fold_left].
    destruct (ale_one (fst (fst x)) (snd (fst x)) (snd x) s Hs) as [E1 H]. rewrite E1. apply IH, H.
  - revert s Hs. induction lsteps as [|x r IH]; intros s Hs; [reflexivity|]. cbn [fold_left].
    destruct (lf_one (fst x) (snd x) s Hs) as [E1 H]. rewrite E1. apply IH, H.
Qed.
End Time.
End C89.

(* ------------------------------------------------------------------ *)
(** * Example: two cells with a sheared flow, seen with other axes *)
Section Example_.
Let M2 : mesh3 bool unit nat :=
  mk_mesh3 [false; true] (fun _ => 10) [] [tt] (fun _ => 3) (fun _ => V3 (-1) 0 0)
    [2%nat] [3%nat] [0%nat; 1%nat] (fun _ => 3)
    (fun n => match n with 0%nat => V3 (-1) 0 0 | 1%nat => V3 1 0 0 | 2%nat => V3 0 0 1 | _ => V3 0 0 (-1) end) (fun n => n).
Let pc (l r : R) : sfield3 bool unit nat :=
  mk_s3 (fun p : bool => if p then r else l) (fun _ => zero3) (fun _ s => if s then r else l) (fun _ _ => zero3)
        (fun e => match e with 0%nat => l | _ => r end) (fun _ => zero3).
Let u2 : vfield3 bool unit nat := mk_vf3 (const3 1) (pc 1 2) (const3 0).
Let K2 : tenv3 bool unit nat :=
  mk_tenv3 true true true (Some 1) (Some u2) None (Some (const3 0)) None None None (fun _ _ => 1) (fun _ _ => 1) 1 1 None
    (fun _ => None) 1.
Let K3 : menv3 bool unit nat :=
  mk_menv3 true true true (Some 1) None (Some (const3 0)) None None None (fun _ _ => 1) (fun _ _ => 1) 1 1
    true None (Some (fun _ => 1/10)) (Some (fun _ => 3)) (2/5) (Some (fun _ => 1/100)) (Some (fun _ => 1/10000)) None 1000 None None
    (fun _ => None) 1.
Let around : view bool unit nat :=
  mk_view (mk_axes (3/5) (4/5) (4/5) (-3/5)) (fun _ => true) (@rev bool) (@rev unit) (@rev nat).
Lemma around_proper : proper around.
Proof. split; [repeat split; cbn; field|]. repeat split; intro l; apply Permutation_sym, Permutation_rev. Qed.

(** The axes are reflected (the Coriolis parameter changes its sign) and all sides swapped. *)
Example C89_example_3d :
  horizontal_uv K2 /\
  tracer_residual3 (turn_mesh3 around M2) (turn_tenv3 around K2) (turn_s3 around (pc 1 0)) (turn_s3 around (pc 2 1))
  = tracer_residual3 M2 K2 (pc 1 0) (pc 2 1) /\
  tracer_residual3 M2 K2 (pc 1 0) (pc 2 1) <> 0 /\
  mom_residual (turn_mesh3 around M2) (turn_menv around K3) (turn_v3 around u2) (turn_v3 around u2) (turn_v3 around u2)
  = mom_residual M2 K3 u2 u2 u2 /\
  m_coriolis (turn_menv around K3) <> m_coriolis K3 /\
  val_v (turn_v3 around u2) false = V3 (7/5) (1/5) 0.
Proof.
  assert (H : horizontal_uv K2).
  { right. intros u f s Hu. injection Hu as <-. reflexivity. }
  split; [exact H|]. split; [apply (C89_tracer_3d around around_proper), H|]. split.
  - unfold tracer_residual3, hor_adv, ver_adv, hor_diff, ver_diff, tsource, dx3, dS_v, dS_h, ds_lat, ds_surf, integral, adv_lat, c_up, upw, sgn.
    cbn -[Rplus Rmult Rminus Rdiv Ropp Rinv IZR Rabs Rlt_dec]. unfold dot3, doth, jump, avg, add3, scal3, opp3, zero3. cbn -[Rplus Rmult Rminus Rdiv Ropp Rinv IZR Rabs Rlt_dec].
    match goal with |- context [Rabs ?x] => replace x with 1 by lra end. rewrite Rabs_R1.
    repeat match goal with |- context [Rlt_dec ?a ?b] => destruct (Rlt_dec a b); try lra end.
  - split; [apply (C89_momentum_3d around around_proper)|]. split.
    + cbn. intro HC. injection HC as HC. pose proof (f_equal (fun h => h false) HC) as HD. cbn in HD. unfold det in HD; cbn in HD. lra.
    + apply v3_ext; cbn; lra.
Qed.
End Example_.

Print Assumptions C89_tracer_3d.
Print Assumptions C89_momentum_3d.
Print Assumptions C89_vertical_velocity.
Print Assumptions C89_internal_pressure.
Print Assumptions C89_tracer_3d_assembled.
Print Assumptions C89_tracer_3d_run.
