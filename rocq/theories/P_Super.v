(** C90: tracers superpose, over whole runs with every integrator. *)
From Coq Require Import Reals List String Bool Arith Lia Lra FunctionalExtensionality.
From Verif Require Import Forms_Model Forms_Spec Forms_Proofs P_Tracer2d
  RK_Model RK_Spec RK_Proofs RK_Proofs2 RK_Proofs3 RK_Proofs4 TimeInt_Model TimeInt_Spec TimeInt_Proofs P_RungeKutta P_TimeInt
  Galerkin_Model Galerkin_Proofs P_Galerkin WaveEnergy_Proofs Variance_Spec P_Variance Super_Spec Super_Proofs
  Super_Swe_Spec Super_Swe_Proofs.
Import ListNotations.
Open Scope R_scope.

(* ------------------------------------------------------------------ *)
(** * Schemes for any three problems that superpose *)
Section Schemes.
Context {D En : Type}.
Variables a b : R.
Variables Fm F1 F2 : En -> (D -> R) -> D -> R.

(** the tendency of a combination is the combination of the tendencies *)
Definition superpose : Prop := forall e u v, Fm e (mix a b u v) = mix a b (F1 e u) (F2 e v).
Hypothesis HF : superpose.

Lemma along_mix : forall u v h n w (k1 k2 : nat -> D -> R),
  along (mix a b u v) h n w (fun i => mix a b (k1 i) (k2 i)) = mix a b (along u h n w k1) (along v h n w k2).
Proof.
  intros. rewrite !along_rsum. apply functional_extensionality. intro x. unfold mix.
  rewrite (rsum_ext n _ (fun j => a * (w j * k1 j x) + b * (w j * k2 j x))) by (intros; ring).
  induction n as [|n IH]; cbn [rsum]; [ring|]. lra.
Qed.

Lemma explicit_mix : forall n A B h e u v u1 v1,
  explicit_step n A B F1 h e u u1 -> explicit_step n A B F2 h e v v1 ->
  explicit_step n A B Fm h e (mix a b u v) (mix a b u1 v1).
Proof.
  intros n A B h e u v u1 v1 (k1 & H1 & ->) (k2 & H2 & ->). exists (fun i => mix a b (k1 i) (k2 i)). split.
  - intros i Hi. rewrite along_mix, HF, <- H1, <- H2 by exact Hi. reflexivity.
  - rewrite along_mix. reflexivity.
Qed.
Lemma implicit_mix : forall n A B h e u v u1 v1,
  implicit_step n A B F1 h e u u1 -> implicit_step n A B F2 h e v v1 ->
  implicit_step n A B Fm h e (mix a b u v) (mix a b u1 v1).
Proof.
  intros n A B h e u v u1 v1 (k1 & H1 & ->) (k2 & H2 & ->). exists (fun i => mix a b (k1 i) (k2 i)). split.
  - intros i Hi. rewrite along_mix, HF, <- H1, <- H2 by exact Hi. reflexivity.
  - rewrite along_mix. reflexivity.
Qed.
Lemma Sum_mix : forall n (f f1 f2 : nat -> R), (forall j, (j < n)%nat -> f j = a * f1 j + b * f2 j) ->
  Sum n f = a * Sum n f1 + b * Sum n f2.
Proof.
  intros n f f1 f2 H. rewrite !Sum_rsum. induction n as [|n IH]; cbn [rsum]; [ring|].
  rewrite IH by (intros; apply H; lia). rewrite (H n) by lia. ring.
Qed.
Lemma shuosher_mix : forall n al be h e u v w u1 v1,
  shuosher_step n al be F1 h e u u1 -> shuosher_step n al be F2 h e v v1 ->
  shuosher_step n al be Fm h e (mix a b u v) w -> w = mix a b u1 v1.
Proof.
  intros n al be h e u v w u1 v1 (y1 & A1 & B1 & ->) (y2 & A2 & B2 & ->) (y & A & B & ->).
  assert (H : forall i, (i <= n)%nat -> y i = mix a b (y1 i) (y2 i)).
  { intro i. induction i as [i IH] using lt_wf_ind. intros Hi. destruct i as [|i]; [rewrite A, A1, A2; reflexivity|].
    rewrite B, B1, B2 by lia. apply functional_extensionality. intro x. unfold mix.
    rewrite (Sum_mix (S i) (fun j => al (S i) j * y j x) (fun j => al (S i) j * y1 j x) (fun j => al (S i) j * y2 j x)).
    2:{ intros j Hj. rewrite IH by lia. unfold mix. ring. }
    rewrite (Sum_mix (S i) (fun j => be (S i) j * Fm (e j) (y j) x) (fun j => be (S i) j * F1 (e j) (y1 j) x) (fun j => be (S i) j * F2 (e j) (y2 j) x)).
    2:{ intros j Hj. rewrite IH by lia. rewrite HF. unfold mix. ring. }
    ring. }
  apply H, le_n.
Qed.

Variable h : R.
Variable uf : option (R -> En -> En).
Notation runs adv s ts := (fold_left (fun s t => adv t s) ts s).

(** Explicit schemes in Butcher form: the whole run. *)
Theorem C90_explicit_run : forall T ts (s s1 s2 : @st D En), h <> 0 ->
  ini s = false -> ini s1 = false -> ini s2 = false -> env s1 = env s -> env s2 = env s ->
  sol s = mix a b (sol s1) (sol s2) ->
  sol (runs (erk_advance T Fm true h uf) s ts)
  = mix a b (sol (runs (erk_advance T F1 true h uf) s1 ts)) (sol (runs (erk_advance T F2 true h uf) s2 ts)).
Proof.
  intros T ts s s1 s2 Hh I0 I1 I2 E1 E2 Hs.
  assert (G : forall ts (s s1 s2 : @st D En), env s1 = env s -> env s2 = env s ->
    erk_start s = mix a b (erk_start s1) (erk_start s2) -> sol s = mix a b (sol s1) (sol s2) ->
    sol (runs (erk_advance T Fm true h uf) s ts)
    = mix a b (sol (runs (erk_advance T F1 true h uf) s1 ts)) (sol (runs (erk_advance T F2 true h uf) s2 ts))).
  { clear - HF Hh. induction ts as [|t ts IH]; intros s s1 s2 E1 E2 H0 Hs; cbn [fold_left]; [exact Hs|].
    destruct (erk_advance_spec T Fm h uf t s Hh) as (A & B & C & I).
    destruct (erk_advance_spec T F1 h uf t s1 Hh) as (A1 & B1 & C1 & J1).
    destruct (erk_advance_spec T F2 h uf t s2 Hh) as (A2 & B2 & C2 & J2).
    rewrite E1 in A1, B1. rewrite E2 in A2, B2. rewrite H0 in A.
    pose proof (C23_step_unique _ _ _ _ _ _ _ _ _ A (explicit_mix _ _ _ _ _ _ _ _ _ A1 A2)) as Q.
    apply IH.
    - rewrite B1, B. reflexivity.
    - rewrite B2, B. reflexivity.
    - unfold erk_start. rewrite I, J1, J2, C, C1, C2. exact Q.
    - exact Q. }
  apply G; try assumption. unfold erk_start. rewrite I0, I1, I2. exact Hs.
Qed.

(** Explicit schemes in Shu-Osher form (strong stability preserving). *)
Theorem C90_ssprk_run : forall n al be c ts (s s1 s2 : @st D En),
  (forall i j, (i < n)%nat -> (j < i)%nat -> be (S i) j = 0) ->
  env s1 = env s -> env s2 = env s -> sol s = mix a b (sol s1) (sol s2) ->
  sol (runs (so_advance n al be c Fm true h uf) s ts)
  = mix a b (sol (runs (so_advance n al be c F1 true h uf) s1 ts)) (sol (runs (so_advance n al be c F2 true h uf) s2 ts)).
Proof.
  intros n al be c ts s s1 s2 Hb E1 E2 Hs. revert s s1 s2 E1 E2 Hs.
  induction ts as [|t ts IH]; intros s s1 s2 E1 E2 Hs; cbn [fold_left]; [exact Hs|].
  destruct (so_advance_spec n al be c Fm h uf t s Hb) as [A B].
  destruct (so_advance_spec n al be c F1 h uf t s1 Hb) as [A1 B1].
  destruct (so_advance_spec n al be c F2 h uf t s2 Hb) as [A2 B2].
  rewrite E1 in A1, B1. rewrite E2 in A2, B2. rewrite Hs in A.
  apply IH; [rewrite B1, B; reflexivity|rewrite B2, B; reflexivity|].
  exact (shuosher_mix _ _ _ _ _ _ _ _ _ _ A1 A2 A).
Qed.

(** Diagonally implicit schemes. *)
Theorem C90_implicit_run : forall T solve semi ts (s s1 s2 : @st D En), (0 < ns T)%nat -> exact_solver solve ->
  (forall i e (base : D -> R), (i < ns T)%nat -> exists k, k = F1 e (fun x => base x + h * ta T i i * k x)) ->
  (forall i e (base : D -> R), (i < ns T)%nat -> exists k, k = F2 e (fun x => base x + h * ta T i i * k x)) ->
  (forall i e (base : D -> R), (i < ns T)%nat -> exists! k, k = Fm e (fun x => base x + h * ta T i i * k x)) ->
  env s1 = env s -> env s2 = env s -> sol s = mix a b (sol s1) (sol s2) ->
  let run := fun G s => sol (runs (dirk_advance T (fun e u _ => G e u) solve semi h uf) s ts) in
  run Fm s = mix a b (run F1 s1) (run F2 s2).
Proof.
  intros T solve semi ts s s1 s2 Hn Hs X1 X2 X E1 E2 H0 run. unfold run. clear run. revert s s1 s2 E1 E2 H0.
  assert (Xm : forall i e (base : D -> R), (i < ns T)%nat -> exists k, k = Fm e (fun x => base x + h * ta T i i * k x))
    by (intros i e base Hi; destruct (X i e base Hi) as (k & Hk & _); exists k; exact Hk).
  induction ts as [|t ts IH]; intros s s1 s2 E1 E2 H0; cbn [fold_left]; [exact H0|].
  pose proof (C24_tendency_form_implicit T Fm solve semi h uf t s Hn Hs Xm) as A.
  pose proof (C24_tendency_form_implicit T F1 solve semi h uf t s1 Hn Hs X1) as A1.
  pose proof (C24_tendency_form_implicit T F2 solve semi h uf t s2 Hn Hs X2) as A2.
  destruct (dirk_advance_spec T (fun e u _ => Fm e u) solve semi h uf t Hs (fun i e base w Hi => Xm i e base Hi) s Hn) as (_ & B & _).
  destruct (dirk_advance_spec T (fun e u _ => F1 e u) solve semi h uf t Hs (fun i e base w Hi => X1 i e base Hi) s1 Hn) as (_ & B1 & _).
  destruct (dirk_advance_spec T (fun e u _ => F2 e u) solve semi h uf t Hs (fun i e base w Hi => X2 i e base Hi) s2 Hn) as (_ & B2 & _).
  cbv zeta in A, A1, A2. rewrite E1 in A1, B1. rewrite E2 in A2, B2. rewrite H0 in A.
  apply IH; [rewrite B1, B; reflexivity|rewrite B2, B; reflexivity|].
  refine (C24_step_unique _ _ _ _ _ _ _ _ _ _ A (implicit_mix _ _ _ _ _ _ _ _ _ A1 A2)).
  intros i base k k' Hi Hk Hk'. destruct (X i (forced uf (abscissae t h (tc T) (S i)) (env s)) base Hi) as (k0 & _ & U). rewrite <- (U k Hk), <- (U k' Hk'). reflexivity.
Qed.
End Schemes.

(* ------------------------------------------------------------------ *)
(** * The theta scheme *)
Section Theta.
Context {D Val Bd : Type}.
Variables a b : R.
Variables Rm R1 R2 : (D -> R) -> (D -> R) -> (string -> option Val) -> (string -> option Val) -> Bd -> D -> R.
Variable mass : (D -> R) -> D -> R.
Hypothesis HR : forall u v w w1 w2 f fo x i, Rm (mix a b u v) w f fo x i = a * R1 u w1 f fo x i + b * R2 v w2 f fo x i.
Hypothesis Hm : forall u v i, mass (mix a b u v) i = a * mass u i + b * mass v i.
Variable keys : list string.
Variable kind : string -> ckind.
Variable solve : ((D -> R) -> D -> R) -> (D -> R) -> D -> R.
Variable dt : R.
Variable uf : option (@forcing Val Bd).
Variable theta : R.
Variable semi : bool.
Notation step r := (cn_advance keys kind r mass solve dt uf theta semi).

(** the system of a step, from [u] to [u'] *)
Definition system (r : (D -> R) -> (D -> R) -> (string -> option Val) -> (string -> option Val) -> Bd -> D -> R)
    (co : @coefs Val Bd) (u u' : D -> R) : Prop :=
  theta_step mass (fun v => r v (if semi then u else v) (view kind co) (view kind co) (oth co))
             (fun v => r v v (view_old kind co) (view_old kind co) (oth co)) dt theta u u'.

Lemma system_mix : forall co u v u' v', system R1 co u u' -> system R2 co v v' -> system Rm co (mix a b u v) (mix a b u' v').
Proof.
  intros co u v u' v' H1 H2 i. specialize (H1 i). specialize (H2 i). cbv beta in *.
  rewrite !Hm. rewrite (HR u' v' _ (if semi then u else u') (if semi then v else v')), (HR u v _ u v). nra.
Qed.

Lemma theta_superpose : forall ts (s s1 s2 : @tst D Val Bd), exact_solver solve ->
  (forall co u u1 u2, system Rm co u u1 -> system Rm co u u2 -> u1 = u2) ->
  (forall co u, exists u', system R1 co u u') -> (forall co u, exists u', system R2 co u u') ->
  tco s1 = tco s -> tco s2 = tco s -> tsol s = mix a b (tsol s1) (tsol s2) ->
  let run := fun r s => tsol (fold_left (fun s t => step r t s) ts s) in
  run Rm s = mix a b (run R1 s1) (run R2 s2).
Proof.
  intros ts s s1 s2 Hs Hu X1 X2 E1 E2 H0 run. unfold run. clear run. revert s s1 s2 E1 E2 H0.
  induction ts as [|t ts IH]; intros s s1 s2 E1 E2 H0; cbn [fold_left]; [exact H0|].
  assert (X : exists u', system Rm (force_co uf (t + dt) (tco s)) (tsol s) u').
  { destruct (X1 (force_co uf (t + dt) (tco s)) (tsol s1)) as (u' & A1). destruct (X2 (force_co uf (t + dt) (tco s)) (tsol s2)) as (v' & A2).
    exists (mix a b u' v'). rewrite H0. apply system_mix; assumption. }
  destruct (cn_advance_spec keys kind Rm mass solve dt uf theta semi t s Hs X) as [Q E].
  destruct (cn_advance_spec keys kind R1 mass solve dt uf theta semi t s1 Hs (X1 _ _)) as [Q1 F1].
  destruct (cn_advance_spec keys kind R2 mass solve dt uf theta semi t s2 Hs (X2 _ _)) as [Q2 F2].
  rewrite E1 in Q1, F1. rewrite E2 in Q2, F2.
  apply IH; [rewrite F1, E; reflexivity|rewrite F2, E; reflexivity|].
  apply (Hu (force_co uf (t + dt) (tco s)) (tsol s)); [exact Q|].
  rewrite H0. apply system_mix; assumption.
Qed.
End Theta.

(* ------------------------------------------------------------------ *)
(** * Tracers in two dimensions *)
Section Tracer.
Context {V F B Val Bd : Type}.
Local Notation tcase := (@tcase V F B).
Variable W : @tspace V F B.
Variable M : mesh V F B.
Variable conservative : bool.
Notation mass := (tracer_mass W M).
Notation rows := (tvec W conservative).
Variables a b : R.

(** The assembled equation of the combined problem. *)
Theorem C90_assembled : forall k k1 k2 c d i, mixed_case a b k k1 k2 ->
  rows k (mix a b c d) i = a * rows k1 c i + b * rows k2 d i.
Proof.
  intros k k1 k2 c d i HM. unfold tvec, tracer_vector. destruct (Nat.ltb i (n_c W)); [|ring].
  rewrite tracer_mix, (diffusion_mix a b k k1 k2 HM). destruct conservative.
  - rewrite (cons_advection_mix a b k k1 k2 HM), (cons_source_mix a b k k1 k2 HM). ring.
  - rewrite (advection_mix a b k k1 k2 HM), (source_mix a b k k1 k2 HM). ring.
Qed.

Lemma mass_mix : forall c d i, mass (mix a b c d) i = a * mass c i + b * mass d i.
Proof.
  intros c d i. unfold tracer_mass. destruct (Nat.ltb i (n_c W)); [|reflexivity].
  rewrite tracer_mix. apply integral_mix. intros p _. unfold mix_s. cbn [add_s scale_s s_v]. ring.
Qed.

(** The tendencies the Runge-Kutta schemes use superpose as well. *)
Theorem C90_tendencies : forall (En : Type) (k k1 k2 : En -> tcase) (Fm F1 F2 : En -> (nat -> R) -> nat -> R),
  tindependent W M -> (forall e, mixed_case a b (k e) (k1 e) (k2 e)) ->
  (forall e u i, mass (Fm e u) i = rows (k e) u i) -> (forall e u i, mass (F1 e u) i = rows (k1 e) u i) ->
  (forall e u i, mass (F2 e u) i = rows (k2 e) u i) -> superpose a b Fm F1 F2.
Proof.
  intros En k k1 k2 Fm F1 F2 Hi Hk H0 H1 H2 e u v. apply (mass_inj W M Hi). intro i.
  rewrite mass_mix, H0, H1, H2. apply C90_assembled, Hk.
Qed.

Variables case case1 case2 : (string -> option Val) -> (string -> option Val) -> Bd -> tcase.
Hypothesis Hcase : forall f fo x, mixed_case a b (case f fo x) (case1 f fo x) (case2 f fo x).
Variable keys : list string.
Variable kind : string -> ckind.
Variable solve : ((nat -> R) -> nat -> R) -> (nat -> R) -> nat -> R.
Variable dt : R.
Variable uf : option (@forcing Val Bd).
Variable theta : R.
Variable semi : bool.
Notation step k := (cn_advance keys kind (TRes W k conservative) mass solve dt uf theta semi).
Notation sys k := (system mass kind dt theta semi (TRes W k conservative)).

(** The theta scheme: whole runs. *)
Theorem C90_theta_run : forall ts (s s1 s2 : @tst nat Val Bd), exact_solver solve ->
  (forall co c c1 c2, sys case co c c1 -> sys case co c c2 -> c1 = c2) ->
  (forall co c, tsolvable W M case1 conservative kind dt theta semi co c) ->
  (forall co c, tsolvable W M case2 conservative kind dt theta semi co c) ->
  tco s1 = tco s -> tco s2 = tco s -> tsol s = mix a b (tsol s1) (tsol s2) ->
  let run := fun k s => tsol (fold_left (fun s t => step k t s) ts s) in
  run case s = mix a b (run case1 s1) (run case2 s2).
Proof.
  intros ts s s1 s2 Hs Hu X1 X2 E1 E2 H0 run. unfold run.
  apply (theta_superpose a b _ _ _ mass); try assumption.
  - intros. unfold TRes. apply C90_assembled, Hcase.
  - apply mass_mix.
Qed.

(** In water that neither converges nor diverges and with proper diffusion each
    step has exactly one solution, and nothing else is needed. *)
Theorem C90_calm_run : forall ts (s s1 s2 : @tst nat Val Bd), exact_solver solve ->
  positive_weights M -> tindependent W M -> 0 <= dt -> 0 <= theta ->
  (forall f fo x, calm W M (case f fo x)) -> (forall f fo x, calm W M (case1 f fo x)) -> (forall f fo x, calm W M (case2 f fo x)) ->
  tco s1 = tco s -> tco s2 = tco s -> tsol s = mix a b (tsol s1) (tsol s2) ->
  let run := fun k s => tsol (fold_left (fun s t => step k t s) ts s) in
  run case s = mix a b (run case1 s1) (run case2 s2).
Proof.
  intros ts s s1 s2 Hs Hw Hi Hdt Hth K K1 K2 E1 E2 H0 run. unfold run. apply C90_theta_run; try assumption.
  - intros co c c1 c2 S1 S2.
    destruct (C85_step_unique W M conservative case kind dt theta semi co c c1 c2 Hw (K _ _ _) Hdt Hth S1 S2) as (_ & Q).
    apply Q, Hi.
  - apply C85_step_exists; assumption.
  - apply C85_step_exists; assumption.
Qed.
End Tracer.

(* ------------------------------------------------------------------ *)
(** * Linear waves and tides *)
Section Waves.
Context {V F B Val Bd : Type}.
Variable W : @space V F B.
Variable M : mesh V F B.
Variable E : swe_env V F B.
Variables a b : R.
Notation mass := (swe_mass W M (fun _ _ => 0)).

(** the divergence of the transport, used for a continuous velocity only *)
Definition linear_transport (dh : (dof -> R) -> (dof -> R) -> V -> R) : Prop :=
  forall u v w w1 w2 p, dh (mix a b u v) w p = a * dh u w1 p + b * dh v w2 p.

(** The assembled linear shallow water equations. *)
Theorem C90_waves_assembled : forall d d1 d2 dh u v w w1 w2 x,
  linear_equations E -> mixed_drivers a b d d1 d2 -> (e_u_jump E = false -> linear_transport dh) ->
  swe_vector W (driven E d) dh (mix a b u v) w x
  = a * swe_vector W (driven E d1) dh u w1 x + b * swe_vector W (driven E d2) dh v w2 x.
Proof. intros d d1 d2 dh u v w w1 w2 x HL HD Hdh. apply swe_mix; [assumption|assumption|]. intros Hj p. apply Hdh, Hj. Qed.

Variable dh : (dof -> R) -> (dof -> R) -> V -> R.
Hypothesis HL : linear_equations E.
Hypothesis Hdh : e_u_jump E = false -> linear_transport dh.
Variables dr dr1 dr2 : (string -> option Val) -> (string -> option Val) -> Bd -> drivers V B.
Hypothesis Hdr : forall f fo x, mixed_drivers a b (dr f fo x) (dr1 f fo x) (dr2 f fo x).
Variable keys : list string.
Variable kind : string -> ckind.
Variable solve : ((dof -> R) -> dof -> R) -> (dof -> R) -> dof -> R.
Variable dt : R.
Variable uf : option (@forcing Val Bd).
Variable theta : R.
Variable semi : bool.
Notation res dr := (Res W dh (fun f fo x => driven E (dr f fo x))).
Notation step dr := (cn_advance keys kind (res dr) mass solve dt uf theta semi).
Notation sys dr := (system mass kind dt theta semi (res dr)).

(** Waves with Crank-Nicolson (any theta): whole runs, driven through boundaries,
    by wind, pressure and sources. *)
Theorem C90_waves_run : forall ts (s s1 s2 : @tst dof Val Bd), exact_solver solve ->
  (forall co u u1 u2, sys dr co u u1 -> sys dr co u u2 -> u1 = u2) ->
  (forall co u, exists u', sys dr1 co u u') -> (forall co u, exists u', sys dr2 co u u') ->
  tco s1 = tco s -> tco s2 = tco s -> tsol s = mix a b (tsol s1) (tsol s2) ->
  let run := fun r s => tsol (fold_left (fun s t => step r t s) ts s) in
  run dr s = mix a b (run dr1 s1) (run dr2 s2).
Proof.
  intros ts s s1 s2 Hs Hu X1 X2 E1 E2 H0 run. unfold run.
  apply (theta_superpose a b _ _ _ mass); try assumption.
  - intros. unfold Res. apply C90_waves_assembled; [assumption|apply Hdr|assumption].
  - intros. apply swe_mass_mix.
Qed.

(** The tendencies of the Runge-Kutta schemes. *)
Theorem C90_waves_tendencies : forall (En : Type) (d d1 d2 : En -> drivers V B) (Fm F1 F2 : En -> (dof -> R) -> dof -> R),
  (forall e, mixed_drivers a b (d e) (d1 e) (d2 e)) ->
  (forall u v, (forall x, mass u x = mass v x) -> u = v) ->
  (forall e u x, mass (Fm e u) x = swe_vector W (driven E (d e)) dh u u x) ->
  (forall e u x, mass (F1 e u) x = swe_vector W (driven E (d1 e)) dh u u x) ->
  (forall e u x, mass (F2 e u) x = swe_vector W (driven E (d2 e)) dh u u x) -> superpose a b Fm F1 F2.
Proof.
  intros En d d1 d2 Fm F1 F2 Hd Hinj H0 H1 H2 e u v. apply Hinj. intro x.
  rewrite swe_mass_mix, H0, H1, H2. apply C90_waves_assembled; [assumption|apply Hd|assumption].
Qed.
End Waves.
