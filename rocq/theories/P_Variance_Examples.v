(** C85: concrete cases, and what fails without the conditions. *)
From Coq Require Import Reals List String Bool Arith Lia Lra FunctionalExtensionality.
From Verif Require Import Forms_Model Forms_Spec Forms_Proofs P_SWE P_Tracer2d
  RK_Model RK_Spec RK_Proofs RK_Proofs3 RK_Proofs4 TimeInt_Model TimeInt_Spec TimeInt_Proofs P_RungeKutta P_TimeInt
  Cfl_Model Stable_Spec P_Energy Galerkin_Model Galerkin_Proofs P_Galerkin LinSys_Proofs WaveEnergy_Proofs
  P_WaveEnergy Variance_Spec P_Variance Forms_Examples P_Tracer2d_Examples.
Import ListNotations.
Open Scope R_scope.

(* ------------------------------------------------------------------ *)
(** * A river through two cells *)
(** Uniform flow in x over the two cells; the tracer has the value [v] where the
    water comes in, diffusivity 1, Lax-Friedrichs and a source of strength [v]. *)
Definition river_env (v : R) : tracer_env nat nat nat :=
  mk_tenv true (Some (1, fun _ => 1))
    (fun m => match m with
              | 1%nat => Some (mk_tb (Some (fun _ => v)) USym None (Some (fun _ => 0)))
              | _ => None
              end) (Some (const_s 1)) (fun _ _ => 4) (Some (fun _ => v)) 0.
Definition river (v : R) : @tcase nat nat nat :=
  mk_tcase basin (river_env v) uniform (const_s 0) (fun _ => (0, 0)).

Ltac crunch2 := cbn -[Rplus Rmult Rminus Rdiv Ropp Rinv IZR sqrt Rmax].

Lemma cells_gauss_square : gauss_square tcells2 two_cells uniform.
Proof.
  intro c. cbv zeta. unfold gauss, dx, dS, ds, integral, divv, unb, vf, vb, vv, normal, dot2, tracer_of, uniform.
  crunch2. unfold p0, affine, edge, unit_of; crunch2. field.
Qed.

Lemma cells_flat : forall c p, s_gv (tracer_of tcells2 c) p = (0, 0).
Proof. intros c p. unfold tracer_of. crunch2. unfold add2, scal2; cbn [fst snd]. f_equal; ring. Qed.
Lemma cells_flat_f : forall c f s, s_gf (tracer_of tcells2 c) f s = (0, 0).
Proof. intros c f s. unfold tracer_of. crunch2. unfold add2, scal2; cbn [fst snd]. destruct s; cbn [fst snd]; f_equal; ring. Qed.

Lemma river_calm : forall v, calm tcells2 two_cells (river v).
Proof.
  intro v. split; [|split; [|split]].
  - split; [reflexivity|]. split; [|split; [apply cells_gauss_square|]].
    + intros f _. unfold un_f, vf, normal, dot2, river, uniform. crunch2. lra.
    + split; [left; reflexivity|]. split; [lra|]. intros; lra.
  - intros b Hb. cbn in Hb.
    repeat (destruct Hb as [<-|Hb]; [cbn [river tc_T tc_E tc_uv tc_elev river_env t_bnd m_marker two_cells edge snd];
      try (split; [reflexivity|discriminate]); unfold unb, vb, dot2, uniform; crunch2; lra|]). destruct Hb.
  - intros mu Hm. injection Hm as <-. split; [|split; [|split]].
    + intros m tb Htb. cbn in Htb. destruct m as [|[|m]]; try discriminate. injection Htb as <-. discriminate.
    + intro p. cbn. lra.
    + intros f _. unfold psig, avg. cbn. destruct (Rgt_dec 4 4); lra.
    + intros _ c. rewrite (dS_zero two_cells).
      * rewrite (dx_zero two_cells); [lra|]. intros p _. rewrite cells_flat. unfold dot2; cbn [fst snd]. ring.
      * intros f _. unfold mean_flux. rewrite !cells_flat_f. unfold dot2, scal2, add2; cbn [fst snd]. unfold Rdiv. ring.
  - intros p _. unfold divv, river, uniform. crunch2. ring.
Qed.

Lemma cells_variance : forall c, variance tcells2 two_cells c = c 0%nat * c 0%nat + c 1%nat * c 1%nat.
Proof.
  intro c. unfold variance, dx, integral, tracer_of, unit_of. crunch2. unfold unit_of; crunch2. ring.
Qed.
Lemma cells_independent : tindependent tcells2 two_cells.
Proof.
  intros c Hc i Hi. rewrite cells_variance in Hc.
  pose proof (Rle_0_sqr (c 0%nat)). pose proof (Rle_0_sqr (c 1%nat)). unfold Rsqr in *.
  assert (Z : forall a : R, a * a = 0 -> a = 0) by (intros a Ha; destruct (Rmult_integral _ _ Ha); assumption).
  cbn in Hi. destruct i as [|[|i]]; [apply Z; lra|apply Z; lra|lia].
Qed.

(** Two runs of the river with the same, changing, value at the inflow and
    source (read from the coefficient "v" at each step) but different starts
    never move apart; every step has a solution. *)
Definition v_of (f : string -> option R) : R := match f "v"%string with Some v => v | None => 0 end.

Example C85_river_example : forall conservative solve uf dt ts1 ts2 (s s' : @tst nat R unit) keys kind semi,
  exact_solver solve -> 0 <= dt -> tco s = tco s' ->
  let step := cn_advance keys kind (TRes tcells2 (fun f _ _ => river (v_of f)) conservative)
                (tracer_mass tcells2 two_cells) solve dt uf (1/2) semi in
  let run := fun s ts => tsol (fold_left (fun s t => step t s) ts s) in
  spread tcells2 two_cells (run s (ts1 ++ ts2)%list) (run s' (ts1 ++ ts2)%list)
  <= spread tcells2 two_cells (run s ts1) (run s' ts1) /\
  facet_loss tcells2 two_cells (river 5) (two 3 1) = 4 /\ bnd_loss tcells2 two_cells (river 5) (two 3 1) = 5.
Proof.
  intros conservative solve uf dt ts1 ts2 s s' keys kind semi Hs Hdt Hco step run. split; [|split].
  - apply (C85_never_apart tcells2 two_cells conservative (fun f _ _ => river (v_of f)) keys kind solve dt uf (1/2) semi ts1 ts2 s s').
    + exact Hco.
    + exact Hs.
    + apply two_weights.
    + apply cells_independent.
    + intros. apply river_calm.
    + right. exists (no_data (river 0)). intros f fo b. unfold no_data, river. cbn [tc_E tc_T tc_uv tc_elev]. f_equal.
      unfold no_data_env, river_env. cbn [t_dg t_lax t_bnd t_mu t_sigma_f t_sign0]. f_equal.
      apply functional_extensionality. intro m. destruct m as [|[|m]]; reflexivity.
    + exact Hdt.
    + lra.
  - unfold facet_loss, dS, integral, un_av, lax, jump, avg_v, avg, dot2, normal, river, river_env, uniform, tracer_of, two.
    crunch2. unfold unit_of; crunch2.
    replace 0.5 with (1/2) by lra. rewrite Rabs_left; [field|lra].
  - unfold bnd_loss, ds, integral, unb, vb, dot2, river, uniform, tracer_of, two. crunch2. unfold unit_of; crunch2.
    assert (A0 : forall x, x = 0 -> Rabs x = 0) by (intros x ->; apply Rabs_R0).
    assert (A1 : forall x, x = 1 -> Rabs x = 1) by (intros x ->; apply Rabs_R1).
    assert (A2 : forall x, x = -1 -> Rabs x = 1) by (intros x ->; rewrite Rabs_left; lra).
    repeat match goal with |- context [Rabs ?x] => first [rewrite (A0 x) by field|rewrite (A1 x) by field|rewrite (A2 x) by field] end.
    field.
Qed.

Example C85_dirk_example : forall solve uf dt ts1 ts2 (s s' : @st nat R),
  exact_solver solve -> 0 <= dt -> env s = env s' ->
  let Fx := fun v c => tvec tcells2 false (river v) c in
  let run := fun s ts => sol (fold_left (fun s t => dirk_advance DIRK22Tab (fun e u _ => Fx e u) solve false dt uf t s) ts s) in
  spread tcells2 two_cells (run s (ts1 ++ ts2)%list) (run s' (ts1 ++ ts2)%list)
  <= spread tcells2 two_cells (run s ts1) (run s' ts1).
Proof.
  intros solve uf dt ts1 ts2 s s' Hs Hdt He Fx run.
  apply (C85_dirk_never_apart tcells2 two_cells false R "DIRK22" DIRK22Tab None river Fx).
  - cbn. do 3 right. left. reflexivity.
  - discriminate.
  - exact He.
  - apply two_weights.
  - apply cells_independent.
  - intro e. apply river_calm.
  - exists (no_data (river 0)). intro e. unfold no_data, river. cbn [tc_E tc_T tc_uv tc_elev]. f_equal.
    unfold no_data_env, river_env. cbn [t_dg t_lax t_bnd t_mu t_sigma_f t_sign0]. f_equal.
    apply functional_extensionality. intro m. destruct m as [|[|m]]; reflexivity.
  - intros e u i. rewrite tcells2_mass. reflexivity.
  - exact Hs.
  - exact Hdt.
Qed.

(* ------------------------------------------------------------------ *)
(** * Without the conditions *)
Definition bare_env : tracer_env nat nat nat :=
  mk_tenv true None (fun _ => None) None (fun _ _ => 4) None 0.
Definition bare (u : vfield nat nat nat) : @tcase nat nat nat :=
  mk_tcase basin bare_env u (const_s 0) (fun _ => (0, 0)).

Lemma bare_no_data : forall u, no_data (bare u) = bare u.
Proof. reflexivity. Qed.

Lemma uniform_rows : forall conservative c,
  tvec tcells2 conservative (bare uniform) c 0%nat = 0 /\
  tvec tcells2 conservative (bare uniform) c 1%nat = c 0%nat - c 1%nat.
Proof.
  intros conservative c.
  assert (U : un_av basin uniform 0%nat = -1) by (unfold un_av, avg_v, avg, normal, dot2, uniform; crunch2; lra).
  assert (S : up_s bare_env (-1) = 0) by (apply up_neg; lra).
  unfold tvec, tracer_vector. cbn [tcells2 n_c Nat.ltb Nat.leb bare tc_E tc_T tc_uv tc_elev tc_gext].
  destruct conservative; split;
  unfold cons_advection, tracer_advection, tracer_diffusion, cons_source, tracer_source, dx, dS, ds, integral;
  cbn [bare_env t_dg t_lax t_mu t_source t_bnd basin env_of e_mesh two_cells m_cells m_facets m_bnds m_wv m_wf m_wb map fold_right];
  rewrite U, S; unfold jump_n, normal, divv, unb, vb, vf, vv, dot2, add2, scal2, uniform, tracer_of;
  crunch2; unfold unit_of; crunch2; field.
Qed.

(** Water comes in where the tracer has no value: what comes in has the value of
    the cell behind the boundary, and the variance grows in the next step with
    every offset and time step, in both forms of the equation. *)
Theorem C85_unfed_inflow_refuted : forall conservative : bool, exists k c,
  transport tcells2 two_cells k /\ proper_diffusion tcells2 two_cells k /\ divergence_free two_cells k /\
  no_data k = k /\
  forall theta dt c', 0 <= theta <= 1 -> 0 < dt ->
    theta_step (tracer_mass tcells2 two_cells) (tvec tcells2 conservative k) (tvec tcells2 conservative k) dt theta c c' ->
    variance tcells2 two_cells c < variance tcells2 two_cells c'.
Proof.
  intro conservative. exists (bare uniform), (two 1 (1/2)). split; [|split; [|split; [|split]]].
  - split; [reflexivity|]. split; [|split; [apply cells_gauss_square|]].
    + intros f _. unfold un_f, vf, normal, dot2, bare, uniform. crunch2. lra.
    + split; [left; reflexivity|exact I].
  - intros mu Hm. discriminate Hm.
  - intros p _. unfold divv, bare, uniform. crunch2. ring.
  - apply bare_no_data.
  - intros theta dt c' Ht Hdt Hst. rewrite !cells_variance. cbn [two].
    pose proof (Hst 0%nat) as S0. pose proof (Hst 1%nat) as S1. rewrite !tcells2_mass in S0, S1.
    destruct (uniform_rows conservative c') as (R0 & R1).
    destruct (uniform_rows conservative (two 1 (1/2))) as (R2 & R3).
    rewrite R0, R2 in S0. rewrite R1, R3 in S1. cbn [two] in S0, S1.
    assert (A : c' 0%nat = 1) by lra. rewrite A in *.
    set (x := c' 1%nat) in *.
    assert (X : (x - 1/2) * (1 + dt * theta) = dt / 2) by nra.
    assert (0 < 1 + dt * theta) by nra.
    assert (1/2 < x) by nra. nra.
Qed.

Lemma through_rows : forall c,
  (tvec tcells2 false (bare through) c 0%nat = 0 /\ tvec tcells2 false (bare through) c 1%nat = 2 * c 0%nat - 2 * c 1%nat) /\
  (tvec tcells2 true (bare through) c 0%nat = - 2 * c 0%nat /\ tvec tcells2 true (bare through) c 1%nat = 2 * c 0%nat).
Proof.
  intros c.
  assert (U : un_av basin through 0%nat = -2) by (unfold un_av, avg_v, avg, normal, dot2, through; crunch2; lra).
  assert (S : up_s bare_env (-2) = 0) by (apply up_neg; lra).
  unfold tvec, tracer_vector. cbn [tcells2 n_c Nat.ltb Nat.leb bare tc_E tc_T tc_uv tc_elev tc_gext].
  split; split;
  unfold cons_advection, tracer_advection, tracer_diffusion, cons_source, tracer_source, dx, dS, ds, integral;
  cbn [bare_env t_dg t_lax t_mu t_source t_bnd basin env_of e_mesh two_cells m_cells m_facets m_bnds m_wv m_wf m_wb map fold_right];
  rewrite U, S; unfold jump_n, normal, divv, unb, vb, vf, vv, dot2, add2, scal2, through, tracer_of;
  crunch2; unfold unit_of, two; crunch2; field.
Qed.

Lemma through_gauss_square : gauss_square tcells2 two_cells through.
Proof.
  intro c. cbv zeta. unfold gauss, dx, dS, ds, integral, divv, unb, vf, vb, vv, normal, dot2, tracer_of, through.
  crunch2. unfold p0, affine, edge, unit_of, two; crunch2. field.
Qed.

(** Closed basin, but the water leaves one cell and gathers in the other: the
    variance can grow in both forms. *)
Theorem C85_converging_refuted : forall conservative : bool, exists k c,
  transport tcells2 two_cells k /\ proper_diffusion tcells2 two_cells k /\ fed_inflow two_cells k /\
  no_data k = k /\
  forall theta dt c', 0 <= theta <= 1 -> 0 < dt ->
    theta_step (tracer_mass tcells2 two_cells) (tvec tcells2 conservative k) (tvec tcells2 conservative k) dt theta c c' ->
    variance tcells2 two_cells c < variance tcells2 two_cells c'.
Proof.
  intro conservative. exists (bare through), (if conservative then two 1 1 else two 1 (1/2)). split; [|split; [|split; [|split]]].
  - split; [reflexivity|]. split; [|split; [apply through_gauss_square|]].
    + intros f _. unfold un_f, vf, normal, dot2, bare, through. crunch2. lra.
    + split; [left; reflexivity|exact I].
  - intros mu Hm. discriminate Hm.
  - intros b Hb. cbn in Hb. cbn [bare tc_T bare_env t_bnd].
    repeat (destruct Hb as [<-|Hb]; [unfold unb, vb, dot2, through; crunch2; lra|]). destruct Hb.
  - apply bare_no_data.
  - intros theta dt c' Ht Hdt Hst. rewrite !cells_variance.
    pose proof (Hst 0%nat) as S0. pose proof (Hst 1%nat) as S1. rewrite !tcells2_mass in S0, S1.
    destruct conservative.
    + destruct (through_rows c') as (_ & R0 & R1). destruct (through_rows (two 1 1)) as (_ & R2 & R3).
      rewrite R0, R2 in S0. rewrite R1, R3 in S1. cbn [two] in S0, S1 |- *.
      set (x := c' 0%nat) in *. set (y := c' 1%nat) in *.
      assert (A : y = 2 - x) by lra. rewrite A.
      assert (X : (x - 1) * (1 + 2 * dt * theta) = - 2 * dt) by nra.
      assert (0 < 1 + 2 * dt * theta) by nra.
      assert (x < 1) by nra. nra.
    + destruct (through_rows c') as ((R0 & R1) & _). destruct (through_rows (two 1 (1/2))) as ((R2 & R3) & _).
      rewrite R0, R2 in S0. rewrite R1, R3 in S1. cbn [two] in S0, S1 |- *.
      assert (A : c' 0%nat = 1) by lra. rewrite A in *.
      set (x := c' 1%nat) in *.
      assert (X : (x - 1/2) * (1 + 2 * dt * theta) = dt) by nra.
      assert (0 < 1 + 2 * dt * theta) by nra.
      assert (1/2 < x) by nra. nra.
Qed.

(* ------------------------------------------------------------------ *)
(** * A ring of three cells *)
(** Points 3c, 3c+1, 3c+2 are the left end, middle and right end of cell c
    (Simpson's rule); facet f joins the right end of cell f ('+') and the left
    end of the next cell. No boundary. *)
Definition nxt (c : nat) : nat := match c with 0 => 1 | 1 => 2 | _ => 0 end%nat.
Definition pt_cell (p : nat) : nat := match p with 0 | 1 | 2 => 0 | 3 | 4 | 5 => 1 | _ => 2 end%nat.
Definition pt_x (p : nat) : R := match p with 0%nat | 3%nat | 6%nat => -1/2 | 1%nat | 4%nat | 7%nat => 0 | _ => 1/2 end.
Definition ring : mesh nat nat nat :=
  mk_mesh [0; 1; 2; 3; 4; 5; 6; 7; 8]%nat (fun p => match p with 1%nat | 4%nat | 7%nat => 2/3 | _ => 1/6 end)
    [0; 1; 2]%nat (fun _ => 1) (fun _ => (1, 0)) [] (fun _ => 1) (fun _ => (1, 0)) (fun _ => 0%nat).
(** the continuous function with value [v c] at the left end of cell [c] *)
Definition hat (v : nat -> R) : sfield nat nat nat :=
  mk_s (fun p => (1/2 - pt_x p) * v (pt_cell p) + (1/2 + pt_x p) * v (nxt (pt_cell p)))
    (fun p => (v (nxt (pt_cell p)) - v (pt_cell p), 0))
    (fun f _ => v (nxt f)) (fun f s => if s then (v (nxt f) - v f, 0) else (v (nxt (nxt f)) - v (nxt f), 0))
    (fun _ => 0) (fun _ => (0, 0)).
Definition ring_space : @tspace nat nat nat := mk_tspace 3 (fun i => hat (unit_of i)).
Definition flow1 : vfield nat nat nat := mk_vf (const_s 1) (const_s 0).
Definition ring_swe : swe_env nat nat nat :=
  mk_env ring 10 1000 (fun b e => b + e) (fun _ => 10) (fun _ _ => 10) (fun _ => 10)
    (fun _ => 1) (fun _ => Closed) (fun _ => None) false true true None None
    false false (fun _ _ => 4) (fun _ => 4) (fun _ => (0, 0)) None None None None None None 0.4 0
    None None None None [].
Definition round : @tcase nat nat nat :=
  mk_tcase ring_swe (mk_tenv false None (fun _ => None) None (fun _ _ => 4) None 0) flow1 (const_s 0) (fun _ => (0, 0)).

Lemma ring_pure : pure_transport ring_space ring round.
Proof.
  split; [reflexivity|]. split.
  { intros f _. unfold un_f, vf, normal, dot2, round, flow1. crunch2. lra. }
  split.
  { intro c. cbv zeta. unfold gauss, dx, dS, ds, integral, divv, unb, vf, vb, vv, normal, dot2, tracer_of, round, flow1.
    crunch2. unfold unit_of, add2, scal2; crunch2. field. }
  split; [reflexivity|]. split; [reflexivity|]. split; [reflexivity|]. split.
  { intros c f _. unfold tracer_of. crunch2. reflexivity. }
  split.
  { intros b Hb. destruct Hb. }
  intros p _. unfold divv, round, flow1. crunch2. ring.
Qed.

Lemma ring_variance : forall c, variance ring_space ring c
  = 1/6 * ((c 0%nat + c 1%nat) * (c 0%nat + c 1%nat) + (c 1%nat + c 2%nat) * (c 1%nat + c 2%nat)
           + (c 2%nat + c 0%nat) * (c 2%nat + c 0%nat)
           + 2 * (c 0%nat * c 0%nat + c 1%nat * c 1%nat + c 2%nat * c 2%nat)).
Proof.
  intro c. unfold variance, dx, integral, tracer_of. crunch2. unfold unit_of; crunch2. field.
Qed.

Lemma ring_independent : tindependent ring_space ring.
Proof.
  intros c Hc i Hi. rewrite ring_variance in Hc.
  pose proof (Rle_0_sqr (c 0%nat)). pose proof (Rle_0_sqr (c 1%nat)). pose proof (Rle_0_sqr (c 2%nat)).
  pose proof (Rle_0_sqr (c 0%nat + c 1%nat)). pose proof (Rle_0_sqr (c 1%nat + c 2%nat)). pose proof (Rle_0_sqr (c 2%nat + c 0%nat)).
  unfold Rsqr in *.
  assert (Z : forall a : R, a * a = 0 -> a = 0) by (intros a Ha; destruct (Rmult_integral _ _ Ha); assumption).
  cbn in Hi. destruct i as [|[|[|i]]]; [apply Z; lra|apply Z; lra|apply Z; lra|lia].
Qed.

(** The tracer is carried round (the rows are not zero) and the distance of two
    runs with offset one half stays exactly the same. *)
Example C85_ring_example : forall conservative solve uf dt ts (s s' : @tst nat unit unit) keys kind semi,
  exact_solver solve -> 0 <= dt -> tco s = tco s' ->
  let step := cn_advance keys kind (TRes ring_space (fun _ _ _ => round) conservative)
                (tracer_mass ring_space ring) solve dt uf (1/2) semi in
  let run := fun s => tsol (fold_left (fun s t => step t s) ts s) in
  spread ring_space ring (run s) (run s') = spread ring_space ring (tsol s) (tsol s') /\
  tvec ring_space conservative round (unit_of 0) 1%nat = 1/2 /\
  tvec ring_space conservative round (unit_of 0) 2%nat = -1/2.
Proof.
  intros conservative solve uf dt ts s s' keys kind semi Hs Hdt Hco step run. split; [|split].
  - apply (C85_lossless ring_space ring conservative (fun _ _ _ => round) keys kind solve dt uf (1/2) semi ts s s').
    + exact Hco.
    + exact Hs.
    + repeat split; intros x Hx; cbn in Hx |- *; try lra.
      * repeat (destruct Hx as [<-|Hx]; [lra|]). destruct Hx.
    + apply ring_independent.
    + intros. apply ring_pure.
    + right. exists (no_data round). reflexivity.
    + exact Hdt.
    + reflexivity.
  - unfold tvec, tracer_vector. cbn [ring_space n_c Nat.ltb Nat.leb].
    destruct conservative; unfold cons_advection, tracer_advection, tracer_diffusion, cons_source, tracer_source, dx, dS, ds, integral,
      divv, vv, dot2, tracer_of, unit_of; crunch2; unfold unit_of, add2, scal2, dot2; crunch2; field.
  - unfold tvec, tracer_vector. cbn [ring_space n_c Nat.ltb Nat.leb].
    destruct conservative; unfold cons_advection, tracer_advection, tracer_diffusion, cons_source, tracer_source, dx, dS, ds, integral,
      divv, vv, dot2, tracer_of, unit_of; crunch2; unfold unit_of, add2, scal2, dot2; crunch2; field.
Qed.

Print Assumptions C85_losses.
Print Assumptions C85_never_apart.
Print Assumptions C85_never_grows.
Print Assumptions C85_dirk_never_apart.
Print Assumptions C85_unfed_inflow_refuted.
