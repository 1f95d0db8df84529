(** C90: cases that meet the hypotheses, and what does not superpose. *)
From Coq Require Import Reals List String Bool Arith Lia Lra QArith Qcanon FunctionalExtensionality.
From Verif Require P_WaveEnergy Num Limiter_Model Limiter_Spec Limiter_Proofs P_Limiter.
From Verif Require Import Forms_Model Forms_Spec Forms_Proofs P_Tracer2d
  RK_Model RK_Spec RK_Proofs TimeInt_Model TimeInt_Spec TimeInt_Proofs P_RungeKutta P_TimeInt
  Galerkin_Model Galerkin_Proofs P_Galerkin Variance_Spec P_Variance Forms_Examples P_Variance_Examples
  Super_Spec Super_Proofs Super_Swe_Spec Super_Swe_Proofs P_Super.
Import ListNotations.
Open Scope R_scope.

(** Two tracers in the river, with the inflow values and sources "v" and "w". *)
Definition w_of (f : string -> option R) : R := match f "w"%string with Some v => v | None => 0 end.
Lemma river_mixed : forall a b v w, mixed_case a b (river (a * v + b * w)) (river v) (river w).
Proof.
  intros a b v w. split; [|split; [|split; [|split]]].
  - repeat split.
  - repeat split.
  - intro m. cbn [river tc_T river_env t_bnd]. destruct m as [|[|m]]; cbn [mixed_bnd]; try exact I.
    cbn [tb_uv tb_elev tb_value tb_diff_flux mixed]. repeat split; intros; ring.
  - intros p. reflexivity.
  - intros x. cbn. f_equal; ring.
Qed.

Example C90_river_example : forall conservative solve uf dt ts (s s1 s2 : @tst nat R unit) keys kind semi a b,
  exact_solver solve -> 0 <= dt -> tco s1 = tco s -> tco s2 = tco s -> tsol s = mix a b (tsol s1) (tsol s2) ->
  let step := fun k => cn_advance keys kind (TRes tcells2 k conservative)
                (tracer_mass tcells2 two_cells) solve dt uf (1/2) semi in
  let run := fun k s => tsol (fold_left (fun s t => step k t s) ts s) in
  run (fun f _ _ => river (a * v_of f + b * w_of f)) s
  = mix a b (run (fun f _ _ => river (v_of f)) s1) (run (fun f _ _ => river (w_of f)) s2).
Proof.
  intros conservative solve uf dt ts s s1 s2 keys kind semi a b Hs Hdt E1 E2 H0 step run. unfold run, step.
  apply C90_calm_run; try assumption; try (intros; apply river_calm); try lra.
  - intros. apply river_mixed.
  - apply two_weights.
  - apply cells_independent.
Qed.

(** The same three problems with the shipped implicit scheme DIRK22. *)
Example C90_dirk_example : forall solve uf dt ts (s s1 s2 : @st nat (R * R)) a b,
  exact_solver solve -> 0 <= dt -> env s1 = env s -> env s2 = env s -> sol s = mix a b (sol s1) (sol s2) ->
  let run := fun (k : R * R -> @tcase nat nat nat) s =>
    sol (fold_left (fun s t => dirk_advance DIRK22Tab (fun e u _ => tvec tcells2 false (k e) u) solve false dt uf t s) ts s) in
  run (fun e => river (a * fst e + b * snd e)) s
  = mix a b (run (fun e => river (fst e)) s1) (run (fun e => river (snd e)) s2).
Proof.
  intros solve uf dt ts s s1 s2 a b Hs Hdt E1 E2 H0 run. unfold run.
  assert (Hm : forall c i, tracer_mass tcells2 two_cells c i = c i).
  { intros c i. unfold tracer_mass. cbn [tcells2 n_c]. destruct i as [|[|i]]; cbn [Nat.ltb Nat.leb]; [| |reflexivity];
    unfold dx, integral, tracer_of, unit_of; crunch2; unfold unit_of; crunch2; lra. }
  assert (Hg : forall i, (i < 2)%nat -> 0 <= ta DIRK22Tab i i).
  { apply (P_WaveEnergy.diagonal_nonneg "DIRK22" DIRK22Tab None); [cbn; do 3 right; left; reflexivity|discriminate]. }
  assert (Hall : forall (k : R * R -> @tcase nat nat nat), (forall e, calm tcells2 two_cells (k e)) ->
    forall i e (base : nat -> R), (i < 2)%nat ->
    exists! c, c = tvec tcells2 false (k e) (fun x => base x + dt * ta DIRK22Tab i i * c x)).
  { intros k Hk i e base Hi. set (h := dt * ta DIRK22Tab i i). assert (Hh : 0 <= h) by (apply Rmult_le_pos; [assumption|apply Hg, Hi]).
    destruct (tsystem_onto tcells2 two_cells false h (k e) (fun x => tvec tcells2 false (k e) base x)) as (c & Hc);
      [apply two_weights|apply Hk|apply cells_independent|exact Hh|].
    assert (Q : forall c, c = tvec tcells2 false (k e) (fun x => base x + h * c x) <->
       forall x, tracer_mass tcells2 two_cells c x + - h * tvec tcells2 false (no_data (k e)) c x = tvec tcells2 false (k e) base x).
    { intro c0. split.
      - intros Hc0 x. rewrite Hm. pose proof (rows_affine tcells2 false (k e) base h c0 x) as A. unfold plus in A.
        rewrite <- Hc0 in A. lra.
      - intros Hc0. apply functional_extensionality. intro x. specialize (Hc0 x). rewrite Hm in Hc0.
        pose proof (rows_affine tcells2 false (k e) base h c0 x) as A. unfold plus in A. lra. }
    exists c. split; [apply Q, Hc|]. intros c' Hc'.
    assert (U : theta_step (tracer_mass tcells2 two_cells) (tvec tcells2 false (k e)) (tvec tcells2 false (k e)) h 1 base (fun x => base x + h * c' x)).
    { intro x. rewrite !Hm. rewrite <- Hc'. ring. }
    assert (U0 : theta_step (tracer_mass tcells2 two_cells) (tvec tcells2 false (k e)) (tvec tcells2 false (k e)) h 1 base (fun x => base x + h * c x)).
    { apply Q in Hc. intro x. rewrite !Hm. rewrite <- Hc. ring. }
    destruct (C85_step_unique tcells2 two_cells false (fun (_ _ : string -> option unit) (_ : unit) => k e) (fun _ => KExpr) h 1 false
      (mk_coefs (fun _ => tt) (fun _ => tt) tt) base (fun x => base x + h * c' x) (fun x => base x + h * c x)) as (_ & Un).
    - apply two_weights.
    - apply Hk.
    - exact Hh.
    - lra.
    - exact U.
    - exact U0.
    - specialize (Un cells_independent). apply functional_extensionality. intro x.
      rewrite Hc'. rewrite (proj2 (Q c) Hc). rewrite Un. reflexivity. }
  apply (C90_implicit_run a b (fun e => tvec tcells2 false (river (a * fst e + b * snd e))) (fun e => tvec tcells2 false (river (fst e)))
    (fun e => tvec tcells2 false (river (snd e)))); try assumption.
  - intros e u v. apply functional_extensionality. intro i. apply C90_assembled, river_mixed.
  - cbn. lia.
  - intros i e base Hi. destruct (Hall (fun e => river (fst e)) (fun e => river_calm _) i e base Hi) as (c & Hc & _). exists c. exact Hc.
  - intros i e base Hi. destruct (Hall (fun e => river (snd e)) (fun e => river_calm _) i e base Hi) as (c & Hc & _). exists c. exact Hc.
  - intros i e base Hi. apply (Hall (fun e => river (a * fst e + b * snd e))); [intro; apply river_calm|exact Hi].
Qed.

(** Tides: two cells with the elevation given at the left end, a flux at the right
    end and wind; linear equations, depth 10 and linear drag. *)
Definition channel : swe_env nat nat nat :=
  mk_env two_cells 10 1000 (fun b _ => b) (fun _ => 10) (fun _ _ => 10) (fun _ => 10)
    (fun _ => 1) (fun _ => Closed) (fun _ => None) true true false None (Some (const_s 1))
    false false (fun _ _ => 4) (fun _ => 4) (fun _ => (0, 0))
    (Some (fun _ => 1 / 10000)) None None None None None 0.4 0
    (Some (fun _ => 1 / 1000)) None None None [].
Definition tide (e : R) : drivers nat nat :=
  mk_drivers (fun m => match m with
                       | 1%nat => Open (mk_ext (Some (fun _ => e)) USym None)
                       | 3%nat => Open (mk_ext None (UFlux (fun _ => 2 * e)) None)
                       | _ => Closed
                       end) (Some (fun _ => (e, 0))) None None (Some (fun _ => 3 * e)).
Lemma channel_linear : linear_equations channel.
Proof. repeat split. Qed.
Lemma tide_mixed : forall a b v w, mixed_drivers a b (tide (a * v + b * w)) (tide v) (tide w).
Proof.
  intros a b v w. split; [|split; [|split; [|split]]].
  - intro m. cbn [tide d_bnd]. destruct m as [|[|[|[|m]]]]; cbn [mixed_rbnd]; try exact I;
    cbn [ex_eta ex_uv ex_un mixed mixed_uv]; repeat split; intros; ring.
  - intro p. cbn. f_equal; ring.
  - intro p. cbn. f_equal; ring.
  - intro p. cbn. f_equal; ring.
  - intro p. cbn. ring.
Qed.
Example C90_tide_example : forall solve uf dt ts (s s1 s2 : @tst dof R unit) keys kind semi dh a b,
  exact_solver solve -> tco s1 = tco s -> tco s2 = tco s -> tsol s = mix a b (tsol s1) (tsol s2) ->
  let step := fun k => cn_advance keys kind (Res cells2 dh k) (swe_mass cells2 two_cells (fun _ _ => 0)) solve dt uf 0 semi in
  let run := fun k s => tsol (fold_left (fun s t => step k t s) ts s) in
  run (fun f _ _ => driven channel (tide (a * v_of f + b * w_of f))) s
  = mix a b (run (fun f _ _ => driven channel (tide (v_of f))) s1) (run (fun f _ _ => driven channel (tide (w_of f))) s2) /\
  swe_vector cells2 (driven channel (tide 1)) dh (fun _ => 0) (fun _ => 0) (ETA 0) = 13.
Proof.
  intros solve uf dt ts s s1 s2 keys kind semi dh a b Hs E1 E2 H0 step run. split.
  - unfold run, step.
    apply (C90_waves_run cells2 two_cells channel a b dh channel_linear (fun H => False_ind _ (Bool.diff_true_false H))
      (fun f _ _ => tide (a * v_of f + b * w_of f)) (fun f _ _ => tide (v_of f)) (fun f _ _ => tide (w_of f))); try assumption.
    + intros. apply tide_mixed.
    + intros co u u1 u2 S1 S2. apply functional_extensionality. intro x. specialize (S1 x). specialize (S2 x).
      rewrite !cells2_mass in S1, S2. lra.
    + intros co u. exists (fun x => u x + dt * Res cells2 dh (fun f _ _ => driven channel (tide (v_of f))) u u (view_old kind co) (view_old kind co) (oth co) x).
      intro x. rewrite !cells2_mass. ring.
    + intros co u. exists (fun x => u x + dt * Res cells2 dh (fun f _ _ => driven channel (tide (w_of f))) u u (view_old kind co) (view_old kind co) (oth co) x).
      intro x. rewrite !cells2_mass. ring.
  - unfold swe_vector. cbn [cells2 n_eta Nat.ltb Nat.leb]. unfold continuity_residual, hu_div, continuity_source.
    crunch2. unfold hu_flux_b, dx, dS, ds, integral, eta_ext, uv_ext, hb, hv, hf, uv_of, eta_of, avg, avg_v, jump_n, normal, vv, vf, vb, dot2, scal2, add2, sub2, p0, affine, edge, unit_of.
    crunch2. unfold p0, affine, edge, unit_of, hb, hv, hf; crunch2.
    replace (10 / (0.5 * (10 + 10))) with 1 by lra. rewrite ?sqrt_1. unfold avg. lra.
Qed.

(** With the nonlinear equations the flow of twice the water is not twice the
    flow. *)
Theorem C90_nonlinear_refuted : exists (E : swe_env nat nat nat) dh u x, e_nonlinear E = true /\
  swe_vector cells2 E dh (mix 1 1 u u) (mix 1 1 u u) x <> 1 * swe_vector cells2 E dh u u x + 1 * swe_vector cells2 E dh u u x.
Proof.
  exists basin, (fun _ _ _ => 0), moving, (ETA 0). split; [reflexivity|].
  unfold swe_vector. cbn [cells2 n_eta Nat.ltb Nat.leb]. unfold continuity_residual, hu_div, continuity_source, basin, env_of.
  crunch2. unfold dx, dS, ds, integral, hv, hf, uv_of, eta_of, avg, avg_v, jump_n, normal, vv, vf, vb, dot2, scal2, add2, sub2, p0, affine, edge, unit_of, mix.
  crunch2. unfold p0, affine, edge, unit_of, moving, mix, hv, hf; crunch2. intro H.
  match type of H with context [sqrt ?x] => set (s1 := sqrt x) in H end. clearbody s1.
  match type of H with context [sqrt ?x] => set (s2 := sqrt x) in H; clearbody s2 | _ => idtac end.
  unfold avg in H. nra.
Qed.

(** The slope limiter does not superpose: the limited sum is not the sum of the
    limited tracers. *)
Definition sum_dg (p q : Limiter_Model.dgfield) : Limiter_Model.dgfield :=
  map (fun xy => map (fun uv => (fst uv + snd uv)%Qc) (combine (fst xy) (snd xy))) (combine p q).
Theorem C90_limiter_refuted : exists m p q, Limiter_Spec.fits m p /\ Limiter_Spec.fits m q /\
  Limiter_Model.apply_limiter m (sum_dg p q) <> sum_dg (Limiter_Model.apply_limiter m p) (Limiter_Model.apply_limiter m q).
Proof.
  exists P_Limiter.two_triangles,
    [[Num.qz 9; Num.qz 0; Num.qz 0]; [Num.qz 1; Num.qz 1; Num.qz 1]],
    [[Num.qz 0; Num.qz 0; Num.qz 0]; [Num.qz 8; Num.qz 8; Num.qz 8]].
  split; [apply P_Limiter.two_triangles_fit|]. split; [apply P_Limiter.two_triangles_fit|].
  intro H. apply (f_equal (fun l => map (map this) l)) in H. vm_compute in H. discriminate H.
Qed.

Print Assumptions C90_explicit_run.
Print Assumptions C90_ssprk_run.
Print Assumptions C90_implicit_run.
Print Assumptions C90_theta_run.
Print Assumptions C90_calm_run.
Print Assumptions C90_waves_run.
Print Assumptions C90_nonlinear_refuted.
Print Assumptions C90_limiter_refuted.
