From Coq Require Import Reals List Arith Bool Lia Lra FunctionalExtensionality.
From Verif Require Import RK_Model RK_Spec.
Import ListNotations.
Open Scope R_scope.

(** ** Finite sums *)

Lemma rsum_ext n f g : (forall i, (i < n)%nat -> f i = g i) -> rsum n f = rsum n g.
Proof.
  induction n; intros H; simpl; [reflexivity|].
  rewrite IHn by (intros; apply H; lia). rewrite H by lia. reflexivity.
Qed.

Lemma rsum_plus n f g : rsum n (fun i => f i + g i) = rsum n f + rsum n g.
Proof. induction n; simpl; [ring|]. rewrite IHn. ring. Qed.

Lemma rsum_minus n f g : rsum n (fun i => f i - g i) = rsum n f - rsum n g.
Proof. induction n; simpl; [ring|]. rewrite IHn. ring. Qed.

Lemma rsum_scal n a f : rsum n (fun i => a * f i) = a * rsum n f.
Proof. induction n; simpl; [ring|]. rewrite IHn. ring. Qed.

Lemma rsum_scal_r n a f : rsum n (fun i => f i * a) = rsum n f * a.
Proof. induction n; simpl; [ring|]. rewrite IHn. ring. Qed.

Lemma rsum_zero n f : (forall i, (i < n)%nat -> f i = 0) -> rsum n f = 0.
Proof.
  induction n; intros H; simpl; [reflexivity|].
  rewrite IHn by (intros; apply H; lia). rewrite H by lia. ring.
Qed.

Lemma rsum_swap n m f :
  rsum n (fun i => rsum m (fun j => f i j)) = rsum m (fun j => rsum n (fun i => f i j)).
Proof.
  induction n; simpl.
  - symmetry. apply rsum_zero. reflexivity.
  - rewrite IHn. rewrite <- rsum_plus. reflexivity.
Qed.

Lemma rsum_split n m f : rsum (n + m) f = rsum n f + rsum m (fun i => f (n + i)%nat).
Proof.
  induction m; simpl.
  - rewrite Nat.add_0_r. ring.
  - rewrite Nat.add_succ_r. simpl. rewrite IHm. ring.
Qed.

Lemma rsum_front n f : rsum (S n) f = f O + rsum n (fun i => f (S i)).
Proof.
  change (S n) with (1 + n)%nat. rewrite rsum_split. simpl. ring.
Qed.

Lemma rsum_cut n m f : (m <= n)%nat -> (forall i, (m <= i < n)%nat -> f i = 0) ->
  rsum n f = rsum m f.
Proof.
  intros Hm Hz. replace n with (m + (n - m))%nat by lia. rewrite rsum_split.
  rewrite (rsum_zero (n - m)); [ring|]. intros i Hi. apply Hz. lia.
Qed.

Lemma rsum_single n j f : (j < n)%nat -> (forall i, (i < n)%nat -> i <> j -> f i = 0) ->
  rsum n f = f j.
Proof.
  induction n; intros Hj Hz; [lia|]. simpl.
  destruct (Nat.eq_dec j n) as [->|Hn].
  - rewrite rsum_zero; [ring|]. intros i Hi. apply Hz; lia.
  - rewrite IHn; [|lia|intros; apply Hz; lia]. rewrite (Hz n) by lia. ring.
Qed.

Lemma fold_right_Rplus_app l1 l2 :
  fold_right Rplus 0 (l1 ++ l2) = fold_right Rplus 0 l1 + fold_right Rplus 0 l2.
Proof. induction l1; simpl; [ring|]. rewrite IHl1. ring. Qed.

Lemma Sum_rsum n f : Sum n f = rsum n f.
Proof.
  unfold Sum. induction n; [reflexivity|].
  rewrite seq_S, map_app, fold_right_Rplus_app, IHn. simpl. ring.
Qed.

Lemma along_rsum {D} (u : D -> R) h n w k :
  along u h n w k = fun x => u x + h * rsum n (fun j => w j * k j x).
Proof. unfold along. apply functional_extensionality; intros x. rewrite Sum_rsum. reflexivity. Qed.

(** ** Forcing updates *)

Lemma abscissae_S t dt c n :
  abscissae t dt c (S n) = abscissae t dt c n ++ [t + c n * dt].
Proof. unfold abscissae. rewrite seq_S, map_app. reflexivity. Qed.

Lemma forced_app {Env} (uf : option (R -> Env -> Env)) l1 l2 e :
  forced uf (l1 ++ l2) e = forced uf l2 (forced uf l1 e).
Proof. destruct uf; simpl; [apply fold_left_app|reflexivity]. Qed.

Lemma force_forced {Env} (uf : option (R -> Env -> Env)) t e : force uf t e = forced uf [t] e.
Proof. destruct uf; reflexivity. Qed.

Lemma forced_S {Env} (uf : option (R -> Env -> Env)) t dt c n e :
  forced uf (abscissae t dt c (S n)) e
  = force uf (t + c n * dt) (forced uf (abscissae t dt c n) e).
Proof. rewrite abscissae_S, forced_app, force_forced. reflexivity. Qed.

Lemma upd_same {D} (f : nat -> D -> R) i v : upd f i v i = v.
Proof. unfold upd. rewrite Nat.eqb_refl. reflexivity. Qed.
Lemma upd_other {D} (f : nat -> D -> R) i v j : j <> i -> upd f i v j = f j.
Proof. unfold upd. intros H. apply Nat.eqb_neq in H. rewrite H. reflexivity. Qed.

(** ** Explicit integrator, Butcher form *)

Section ERK.
Context {D Env : Type}.
Variable T : tableau.
Variable F : Env -> (D -> R) -> D -> R.
Variable dt : R.
Variable uf : option (R -> Env -> Env).
Variable t : R.

Lemma erk_loop (s : st) m :
  let s' := for_range m (erk_solve_stage T F true dt uf t) s in
  sol_old s' = sol_old s /\ ini s' = ini s /\
  env s' = forced uf (abscissae t dt (tc T) m) (env s) /\
  forall i, (i < m)%nat ->
    kk s' i = vscale dt (F (forced uf (abscissae t dt (tc T) (S i)) (env s))
                           (vadd (sol_old s) (vlin i (ta T i) (kk s')))).
Proof.
  induction m; cbn [for_range].
  - repeat split. destruct uf; reflexivity. intros; lia.
  - destruct IHm as (Ho & Hi & He & Hk).
    set (s1 := for_range m (erk_solve_stage T F true dt uf t) s) in *.
    unfold erk_solve_stage, erk_solve_tendency, erk_update_solution.
    cbn [andb].
    destruct (Nat.ltb 0 m) eqn:Hm; cbn [sol sol_old kk ini env set_sol set_k set_env].
    + split; [exact Ho|]. split; [exact Hi|]. split.
      { rewrite forced_S, He. reflexivity. }
      intros i Hlt. destruct (Nat.eq_dec i m) as [->|Hne].
      * rewrite upd_same. rewrite forced_S, He, Ho. f_equal. f_equal. unfold vadd, vlin.
        apply functional_extensionality; intros x. f_equal.
        apply rsum_ext. intros j Hj. rewrite upd_other by lia. reflexivity.
      * rewrite upd_other by lia. rewrite Hk by lia. f_equal. f_equal. unfold vadd, vlin.
        apply functional_extensionality; intros x. f_equal.
        apply rsum_ext. intros j Hj. rewrite upd_other by lia. reflexivity.
    + apply Nat.ltb_ge in Hm. assert (m = O) by lia. subst m.
      split; [exact Ho|]. split; [exact Hi|]. split.
      { rewrite forced_S, He. reflexivity. }
      intros i Hlt. assert (i = O) by lia. subst i.
      rewrite upd_same. rewrite forced_S, He, Ho. f_equal. f_equal. unfold vadd, vlin.
      apply functional_extensionality; intros x. simpl. ring.
Qed.

(** value from which the step starts *)
Definition erk_start (s : @st D Env) : D -> R := if ini s then sol_old s else sol s.

Lemma erk_advance_spec (s : st) :
  dt <> 0 ->
  let s' := erk_advance T F true dt uf t s in
  explicit_step (ns T) (ta T) (tb T) F dt
    (fun i => forced uf (abscissae t dt (tc T) (S i)) (env s)) (erk_start s) (sol s') /\
  env s' = forced uf (abscissae t dt (tc T) (ns T)) (env s) /\
  sol_old s' = sol s' /\ ini s' = true.
Proof.
  intros Hdt. unfold erk_advance, erk_start.
  set (s0 := if ini s then s else erk_initialize (sol s) s).
  assert (H0 : sol_old s0 = (if ini s then sol_old s else sol s) /\ ini s0 = true /\ env s0 = env s).
  { unfold s0. destruct (ini s) eqn:E; cbn; auto. }
  destruct H0 as (Ho & Hi & He).
  pose proof (erk_loop s0 (ns T)) as L. cbn zeta in L.
  set (s1 := for_range (ns T) (erk_solve_stage T F true dt uf t) s0) in *.
  destruct L as (Lo & Li & Le & Lk).
  cbn [sol sol_old kk ini env set_sol set_old erk_get_final].
  split; [|split; [|split]].
  - exists (fun i => vscale (/ dt) (kk s1 i)). split.
    + intros i Hlt. rewrite (Lk i Hlt). rewrite He.
      unfold vscale. apply functional_extensionality; intros x.
      rewrite <- Rmult_assoc, Rinv_l, Rmult_1_l by assumption.
      f_equal. rewrite along_rsum, Ho. unfold vadd, vlin.
      apply functional_extensionality; intros y. f_equal.
      rewrite <- rsum_scal. apply rsum_ext. intros j Hj. field. assumption.
    + rewrite along_rsum, Lo, Ho. unfold vadd, vlin.
      apply functional_extensionality; intros y. f_equal.
      rewrite <- rsum_scal. apply rsum_ext. intros j Hj. unfold vscale. field. assumption.
  - rewrite Le, He. reflexivity.
  - reflexivity.
  - rewrite Li. exact Hi.
Qed.

(** trivial equation: nothing happens to the solution *)
Lemma erk_trivial_loop (s : @st D Env) m :
  let s' := for_range m (erk_solve_stage T F false dt uf t) s in
  sol_old s' = sol_old s /\ ini s' = ini s /\ env s' = env s.
Proof.
  induction m; cbn [for_range]; [auto|].
  destruct IHm as (Ho & Hi & He).
  unfold erk_solve_stage, erk_solve_tendency, erk_update_solution.
  cbn. auto.
Qed.

Lemma erk_trivial (s : st) :
  let s' := erk_advance T F false dt uf t s in
  sol s' = erk_start s /\ sol_old s' = erk_start s /\ env s' = env s /\ ini s' = true.
Proof.
  unfold erk_advance, erk_start.
  set (s0 := if ini s then s else erk_initialize (sol s) s).
  assert (H0 : sol_old s0 = (if ini s then sol_old s else sol s) /\ ini s0 = true /\ env s0 = env s).
  { unfold s0. destruct (ini s) eqn:E; cbn; auto. }
  destruct H0 as (Ho & Hi & He).
  pose proof (erk_trivial_loop s0 (ns T)) as L. cbn zeta in L.
  destruct L as (Lo & Li & Le).
  cbn. rewrite Lo, Li, Le, Ho, Hi, He. auto.
Qed.
End ERK.

(** ** Explicit integrator, Shu-Osher form *)

Section SO.
Context {D Env : Type}.
Variable n : nat.
Variables alpha beta : mat.
Variable c : nat -> R.
Variable F : Env -> (D -> R) -> D -> R.
Variable dt : R.
Variable uf : option (R -> Env -> Env).
Variable t : R.

Let E (e : Env) i := forced uf (abscissae t dt c i) e.

(** stage values by recursion *)
Lemma so_loop (s : st) m : (m <= n)%nat ->
  let s' := for_range m (so_solve_stage n alpha beta c F true dt uf t) s in
  exists y : nat -> D -> R,
    y O = sol s /\ sol s' = y m /\ env s' = E (env s) m /\
    (forall i, (i < m)%nat ->
      y (S i) = vadd (vscale (beta (S i) i) (vscale dt (F (E (env s) (S i)) (y i))))
                     (vlin (S i) (alpha (S i)) y)) /\
    (forall j, (0 < m)%nat -> (j <= m)%nat -> (j < n)%nat -> stg s' j = y j).
Proof.
  induction m; intros Hm; cbn [for_range].
  - exists (fun _ => sol s). repeat split; auto.
    + unfold E. destruct uf; reflexivity.
    + intros; lia.
    + intros; lia.
  - destruct IHm as (y & Hy0 & Hs & He & Hy & Hg); [lia|].
    set (s1 := for_range m (so_solve_stage n alpha beta c F true dt uf t) s) in *.
    set (e1 := force uf (t + c m * dt) (env s1)).
    assert (Ee : e1 = E (env s) (S m)).
    { unfold e1, E. rewrite forced_S. rewrite He. reflexivity. }
    set (ynew := vadd (vscale (beta (S m) m) (vscale dt (F e1 (sol s1))))
                     (vlin (S m) (alpha (S m)) y)).
    exists (fun j => if Nat.eqb j (S m) then ynew else y j).
    unfold so_solve_stage. fold e1.
    set (stg1 := if Nat.eqb m 0 then upd (stg s1) 0 (sol s1) else stg s1).
    assert (Hst : forall j, (j <= m)%nat -> stg1 j = y j).
    { intros j Hj. unfold stg1. destruct (Nat.eqb m 0) eqn:E0.
      - apply Nat.eqb_eq in E0. assert (j = O) by lia. subst.
        rewrite upd_same. rewrite Hs. reflexivity.
      - apply Nat.eqb_neq in E0. apply Hg; lia. }
    assert (Hlin : vlin (S m) (alpha (S m)) stg1 = vlin (S m) (alpha (S m)) y).
    { unfold vlin. apply functional_extensionality; intros x.
      apply rsum_ext. intros j Hj. rewrite Hst by lia. reflexivity. }
    assert (Hnew : forall b1 : bool,
      let s2 := if b1 then set_stg 0 (sol s1) (set_env e1 s1) else set_env e1 s1 in
      b1 = Nat.eqb m 0 ->
      sol s2 = sol s1 /\ env s2 = e1 /\ stg s2 = stg1 /\ ini s2 = ini s1).
    { intros b1 s2 Hb. unfold s2, stg1. rewrite <- Hb. destruct b1; cbn; auto. }
    specialize (Hnew (Nat.eqb m 0) eq_refl). cbn zeta in Hnew.
    change (sol (set_env e1 s1)) with (sol s1).
    set (s2 := if Nat.eqb m 0 then set_stg 0 (sol s1) (set_env e1 s1) else set_env e1 s1) in *.
    destruct Hnew as (N1 & N2 & N3 & N4).
    cbn [sol sol_old kk stg ini env set_sol set_k].
    rewrite upd_same, N1, N2, N3, Hlin. fold ynew.
    split; [exact Hy0|].
    assert (Hres : forall b1 : bool,
       let s3 := if b1 then set_stg (S m) ynew (mk_st ynew (sol_old s2) (upd (kk s2) 0 (vscale dt (F e1 (sol s1)))) stg1 (ini s2) e1)
                 else mk_st ynew (sol_old s2) (upd (kk s2) 0 (vscale dt (F e1 (sol s1)))) stg1 (ini s2) e1 in
       b1 = Nat.ltb m (n - 1) ->
       sol s3 = ynew /\ env s3 = e1 /\
       (forall j, (0 < S m)%nat -> (j <= S m)%nat -> (j < n)%nat ->
          stg s3 j = (if Nat.eqb j (S m) then ynew else y j))).
    { intros b1 s3 Hb. unfold s3. destruct b1; cbn; split; auto; split; auto.
      - intros j _ Hj Hjn. destruct (Nat.eqb j (S m)) eqn:Ej.
        + apply Nat.eqb_eq in Ej. subst j. rewrite upd_same. reflexivity.
        + apply Nat.eqb_neq in Ej. rewrite upd_other by lia. apply Hst. lia.
      - intros j _ Hj Hjn. symmetry in Hb. apply Nat.ltb_ge in Hb.
        destruct (Nat.eqb j (S m)) eqn:Ej.
        + apply Nat.eqb_eq in Ej. lia.
        + apply Nat.eqb_neq in Ej. apply Hst. lia. }
    specialize (Hres (Nat.ltb m (n - 1)) eq_refl). cbn zeta in Hres.
    unfold set_sol, set_k. cbn [sol sol_old kk stg ini env]. rewrite ?N1, ?N2, ?N3.
    destruct Hres as (R1 & R2 & R3).
    split; [rewrite Nat.eqb_refl; exact R1|].
    split; [rewrite <- Ee; exact R2|].
    split; [|exact R3].
    intros i Hi. destruct (Nat.eqb i m) eqn:Ei.
    + apply Nat.eqb_eq in Ei. subst i. rewrite Nat.eqb_refl.
      replace (Nat.eqb m (S m)) with false by (symmetry; apply Nat.eqb_neq; lia).
      rewrite <- Ee, <- Hs. unfold ynew. f_equal. unfold vlin.
      apply functional_extensionality; intros x. apply rsum_ext. intros j Hj.
      replace (Nat.eqb j (S m)) with false by (symmetry; apply Nat.eqb_neq; lia). reflexivity.
    + apply Nat.eqb_neq in Ei.
      replace (Nat.eqb (S i) (S m)) with false by (symmetry; apply Nat.eqb_neq; lia).
      replace (Nat.eqb i (S m)) with false by (symmetry; apply Nat.eqb_neq; lia).
      rewrite Hy by lia. f_equal. unfold vlin.
      apply functional_extensionality; intros x. apply rsum_ext. intros j Hj.
      replace (Nat.eqb j (S m)) with false by (symmetry; apply Nat.eqb_neq; lia). reflexivity.
Qed.

Lemma so_advance_spec (s : st) :
  (forall i j, (i < n)%nat -> (j < i)%nat -> beta (S i) j = 0) ->
  let s' := so_advance n alpha beta c F true dt uf t s in
  shuosher_step n alpha beta F dt (fun i => E (env s) (S i)) (sol s) (sol s') /\
  env s' = E (env s) n.
Proof.
  intros Hb. unfold so_advance.
  pose proof (so_loop s n (le_n _)) as L. cbn zeta in L.
  destruct L as (y & H0 & Hs & He & Hy & _).
  split; [|exact He].
  exists y. split; [exact H0|]. split; [|exact Hs].
  intros i Hi. rewrite Hy by exact Hi. apply functional_extensionality; intros x.
  rewrite !Sum_rsum. unfold vadd, vscale, vlin.
  rewrite (rsum_single (S i) i (fun j => beta (S i) j * _)); [ring|lia|].
  intros j Hj Hne. rewrite Hb by lia. ring.
Qed.
End SO.

(** Butcher step and Shu-Osher step coincide when the coefficients match *)
Lemma shuosher_explicit {D Env} (T : tableau) alpha beta (F : Env -> (D -> R) -> D -> R) dt e u u' :
  (forall i, (i < ns T)%nat -> rsum (S i) (alpha (S i)) = 1) ->
  (forall i j, (i < ns T)%nat -> (j <= i)%nat ->
     beta (S i) j = butcher T (S i) j - rsum (S i) (fun l => alpha (S i) l * butcher T l j)) ->
  (forall i j, (i <= ns T)%nat -> (i <= j)%nat -> (j < ns T)%nat -> butcher T i j = 0) ->
  shuosher_step (ns T) alpha beta F dt e u u' <->
  explicit_step (ns T) (ta T) (tb T) F dt e u u'.
Proof.
  intros Hrow Hbeta Hlow. set (n := ns T) in *.
  (* algebra: if all earlier stages have Butcher form, so has the next *)
  assert (Key : forall (y : nat -> D -> R) i, (i < n)%nat ->
     (forall l, (l <= i)%nat -> y l = fun x => u x + dt * rsum l (fun j => butcher T l j * F (e j) (y j) x)) ->
     (fun x => Sum (S i) (fun j => alpha (S i) j * y j x)
               + dt * Sum (S i) (fun j => beta (S i) j * F (e j) (y j) x))
     = fun x => u x + dt * rsum (S i) (fun j => butcher T (S i) j * F (e j) (y j) x)).
  { intros y i Hi Hl. apply functional_extensionality; intros x. rewrite !Sum_rsum.
    set (f := fun j => F (e j) (y j) x).
    rewrite (rsum_ext (S i) (fun j => alpha (S i) j * y j x)
       (fun l => alpha (S i) l * u x + dt * (alpha (S i) l * rsum (S i) (fun j => butcher T l j * f j)))).
    2:{ intros l Hll. rewrite (Hl l) by lia.
        rewrite (rsum_cut (S i) l (fun j => butcher T l j * f j)); [unfold f; ring|lia|].
        intros j Hj. rewrite Hlow by lia. ring. }
    rewrite rsum_plus, rsum_scal, rsum_scal_r, Hrow by exact Hi.
    rewrite (rsum_ext (S i) (fun j => beta (S i) j * F (e j) (y j) x)
      (fun j => butcher T (S i) j * f j - rsum (S i) (fun l => alpha (S i) l * butcher T l j) * f j)).
    2:{ intros j Hj. rewrite Hbeta by lia. unfold f. ring. }
    rewrite rsum_minus.
    assert (Hsw : rsum (S i) (fun l => alpha (S i) l * rsum (S i) (fun j => butcher T l j * f j))
                = rsum (S i) (fun j => rsum (S i) (fun l => alpha (S i) l * butcher T l j) * f j)).
    { rewrite (rsum_ext _ _ (fun l => rsum (S i) (fun j => alpha (S i) l * butcher T l j * f j))).
      2:{ intros l _. rewrite <- rsum_scal. apply rsum_ext. intros; ring. }
      rewrite rsum_swap. apply rsum_ext. intros j _. rewrite <- rsum_scal_r. reflexivity. }
    rewrite Hsw. unfold f. ring. }
  split.
  - intros (y & H0 & Hy & Hu).
    assert (Hform : forall i, (i <= n)%nat ->
       y i = fun x => u x + dt * rsum i (fun j => butcher T i j * F (e j) (y j) x)).
    { intros i. induction i as [i IH] using lt_wf_ind. intros Hi.
      destruct i as [|i].
      - rewrite H0. apply functional_extensionality; intros x. simpl. ring.
      - rewrite Hy by lia. apply Key; [lia|]. intros l Hl. apply IH; lia. }
    exists (fun i => F (e i) (y i)). split.
    + intros i Hi. rewrite along_rsum. f_equal. rewrite Hform by lia.
      apply functional_extensionality; intros x. f_equal. f_equal.
      apply rsum_ext. intros j Hj. unfold butcher. fold n.
      assert (Hb : Nat.ltb i n = true) by (apply Nat.ltb_lt; lia). rewrite Hb. reflexivity.
    + rewrite Hu, along_rsum, Hform by lia. apply functional_extensionality; intros x.
      f_equal. f_equal. apply rsum_ext. intros j Hj. unfold butcher. fold n.
      rewrite Nat.ltb_irrefl. reflexivity.
  - intros (k & Hk & Hu).
    exists (fun i x => u x + dt * rsum i (fun j => butcher T i j * k j x)).
    assert (Hkf : forall j, (j < n)%nat ->
       k j = F (e j) (fun x => u x + dt * rsum j (fun l => butcher T j l * k l x))).
    { intros j Hj. rewrite (Hk j Hj) at 1. rewrite along_rsum. f_equal.
      apply functional_extensionality; intros x. f_equal. f_equal. apply rsum_ext.
      intros l Hl. unfold butcher. fold n.
      assert (Hb : Nat.ltb j n = true) by (apply Nat.ltb_lt; lia). rewrite Hb. reflexivity. }
    split; [|split].
    + apply functional_extensionality; intros x. simpl. ring.
    + intros i Hi. symmetry.
      set (y := fun i x => u x + dt * rsum i (fun j => butcher T i j * k j x)) in *.
      etransitivity; [apply (Key y i Hi)|].
      * intros l Hl. unfold y at 1. apply functional_extensionality; intros x.
        f_equal. f_equal. apply rsum_ext. intros j Hj.
        rewrite (Hkf j) by lia. reflexivity.
      * unfold y. apply functional_extensionality; intros x.
        f_equal. f_equal. apply rsum_ext. intros j Hj.
        rewrite <- (Hkf j) by lia. reflexivity.
    + rewrite Hu, along_rsum. apply functional_extensionality; intros x.
      f_equal. f_equal. apply rsum_ext. intros j Hj. unfold butcher. fold n.
      rewrite Nat.ltb_irrefl. reflexivity.
Qed.
