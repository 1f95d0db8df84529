From Coq Require Import Reals List Arith Bool Lia Lra FunctionalExtensionality.
From Verif Require Import RK_Model RK_Spec RK_Proofs.
Import ListNotations.
Open Scope R_scope.

Ltac fext x := apply functional_extensionality; intros x.

(** ** Diagonally implicit integrator, tendency form *)

Lemma neg_plus (a b : R) : a = b -> - a + b = 0.
Proof. intros ->. ring. Qed.

Section DIRK.
Context {D Env : Type}.
Variable T : tableau.
Variable G : Env -> (D -> R) -> (D -> R) -> D -> R.
Variable solve : ((D -> R) -> D -> R) -> (D -> R) -> D -> R.
Variable semi : bool.
Variable dt : R.
Variable uf : option (R -> Env -> Env).
Variable t : R.

Hypothesis Hsolve : exact_solver solve.

(** every stage equation has a solution *)
Definition solvable_stages : Prop :=
  forall i (e : Env) (base w : D -> R), (i < ns T)%nat ->
    exists k : D -> R, k = G e (fun x => base x + dt * ta T i i * k x) w.

Hypothesis Hsolvable : solvable_stages.

Let E (e : Env) i := forced uf (abscissae t dt (tc T) i) e.

Lemma vlin_upd i (c : nat -> R) (f : nat -> D -> R) v :
  vlin (S i) c (upd f i v) = fun x => rsum i (fun j => c j * f j x) + c i * v x.
Proof.
  unfold vlin. fext x. simpl. rewrite upd_same. f_equal.
  apply rsum_ext. intros j Hj. rewrite upd_other by lia. reflexivity.
Qed.

Lemma dirk_stage_root i (s : st) g : (i < ns T)%nat ->
  let k := solve (dirk_residual T G semi dt i s) g in
  k = G (env s) (vadd (sol_old s) (vlin (S i) (fun j => ta T i j * dt) (upd (kk s) i k)))
        (if semi then sol_old s else sol s).
Proof.
  intros Hi k.
  assert (Hex : exists k, forall x, dirk_residual T G semi dt i s k x = 0).
  { destruct (Hsolvable i (env s) (fun x => sol_old s x + rsum i (fun j => ta T i j * dt * kk s j x))
                (if semi then sol_old s else sol s) Hi) as (k0 & Hk0).
    exists k0. intros x. unfold dirk_residual.
    replace (vadd (sol_old s) (vlin (S i) (fun j => ta T i j * dt) (upd (kk s) i k0)))
      with (fun x => sol_old s x + rsum i (fun j => ta T i j * dt * kk s j x) + dt * ta T i i * k0 x).
    - pose proof (f_equal (fun f => f x) Hk0) as E0. cbn beta in E0.
      exact (neg_plus _ _ E0).
    - fext y. unfold vadd. rewrite vlin_upd. ring. }
  specialize (Hsolve (dirk_residual T G semi dt i s) g Hex). fold k in Hsolve.
  fext x. specialize (Hsolve x). unfold dirk_residual in Hsolve. lra.
Qed.

Definition dirk_lin (u : D -> R) (i : nat) (k : nat -> D -> R) : D -> R :=
  if semi then u else previous_stage u dt (ta T) i k.

Lemma along_ext (u : D -> R) h n w k k' :
  (forall j, (j < n)%nat -> k j = k' j) -> along u h n w k = along u h n w k'.
Proof.
  intros H. rewrite !along_rsum. fext x. f_equal. f_equal.
  apply rsum_ext. intros j Hj. rewrite H by exact Hj. reflexivity.
Qed.

Lemma dirk_lin_ext u i k k' :
  (forall j, (j < i)%nat -> k j = k' j) -> dirk_lin u i k = dirk_lin u i k'.
Proof.
  intros H. unfold dirk_lin. destruct semi; [reflexivity|].
  destruct i; [reflexivity|]. cbn [previous_stage]. apply along_ext. exact H.
Qed.

Lemma along_vlin (u : D -> R) n (w : nat -> R) k :
  vadd u (vlin n (fun j => dt * w j) k) = along u dt n w k.
Proof.
  rewrite along_rsum. unfold vadd, vlin. fext x. f_equal.
  rewrite <- rsum_scal. apply rsum_ext. intros; ring.
Qed.

Lemma dirk_loop (s : st) m : (m <= ns T)%nat ->
  let s' := for_range m (dirk_solve_stage T G solve semi dt uf t) s in
  ini s' = ini s /\
  env s' = E (env s) m /\
  (m = O -> sol s' = sol s) /\
  (forall m', m = S m' -> sol_old s' = sol s /\ sol s' = along (sol s) dt m (ta T m') (kk s')) /\
  forall i, (i < m)%nat ->
    kk s' i = G (E (env s) (S i)) (along (sol s) dt (S i) (ta T i) (kk s')) (dirk_lin (sol s) i (kk s')).
Proof.
  induction m; intros Hm; cbn [for_range].
  - split; [reflexivity|]. split; [unfold E; destruct uf; reflexivity|].
    split; [reflexivity|]. split; intros; lia.
  - destruct IHm as (Hi & He & H0 & HS & Hk); [lia|].
    set (s1 := for_range m (dirk_solve_stage T G solve semi dt uf t) s) in *. clearbody s1.
    unfold dirk_solve_stage, dirk_solve_tendency, dirk_update_solution.
    set (s2 := if Nat.eqb m 0 then set_old (sol s1) s1 else s1).
    set (s3 := set_env (force uf (t + tc T m * dt) (env s2)) s2).
    assert (Hs2 : sol_old s2 = sol s /\ sol s2 = previous_stage (sol s) dt (ta T) m (kk s1)
                  /\ kk s2 = kk s1 /\ env s2 = env s1 /\ ini s2 = ini s1).
    { unfold s2. destruct m; cbn [Nat.eqb]; cbn.
      - rewrite H0 by reflexivity. auto.
      - destruct (HS m eq_refl) as [A B]. auto. }
    destruct Hs2 as (P1 & P2 & P3 & P4 & P5).
    assert (He3 : env s3 = E (env s) (S m)).
    { unfold s3. cbn. unfold E. rewrite forced_S, P4, He. reflexivity. }
    pose proof (dirk_stage_root m s3 (kk s3 m)) as Hroot. cbn zeta in Hroot.
    set (knew := solve (dirk_residual T G semi dt m s3) (kk s3 m)) in *.
    specialize (Hroot ltac:(lia)).
    cbn [sol sol_old kk ini env set_sol set_k].
    assert (Q1 : sol_old s3 = sol s) by exact P1.
    assert (Q2 : sol s3 = previous_stage (sol s) dt (ta T) m (kk s1)) by exact P2.
    assert (Q3 : kk s3 = kk s1) by exact P3.
    rewrite Q1, Q3.
    split; [unfold s3; cbn; congruence|].
    split; [exact He3|].
    split; [intros; lia|].
    split.
    + intros m' Hm'. injection Hm' as <-. split; [reflexivity|]. apply along_vlin.
    + intros i Hlt. destruct (Nat.eq_dec i m) as [->|Hne].
      * rewrite upd_same. rewrite Hroot at 1. rewrite He3, Q1, Q2, Q3.
        rewrite <- along_vlin. f_equal.
        -- f_equal. unfold vlin. fext x. apply rsum_ext. intros; ring.
        -- unfold dirk_lin. destruct semi; [reflexivity|].
           destruct m; [reflexivity|]. cbn [previous_stage]. apply along_ext.
           intros j Hj. rewrite upd_other by lia. reflexivity.
      * rewrite upd_other by lia. rewrite Hk by lia. f_equal.
        -- apply along_ext. intros j Hj. rewrite upd_other by lia. reflexivity.
        -- apply dirk_lin_ext. intros j Hj. rewrite upd_other by lia. reflexivity.
Qed.

Lemma dirk_advance_spec (s : st) : (0 < ns T)%nat ->
  let s' := dirk_advance T G solve semi dt uf t s in
  linearised_step (ns T) (ta T) (tb T) G dt (fun i => E (env s) (S i))
    (dirk_lin (sol s)) (sol s) (sol s') /\
  env s' = E (env s) (ns T) /\ ini s' = true.
Proof.
  intros Hn. unfold dirk_advance.
  set (s0 := if ini s then s else dirk_initialize (sol s) s).
  assert (H0 : sol s0 = sol s /\ ini s0 = true /\ env s0 = env s).
  { unfold s0. destruct (ini s) eqn:Ei; cbn; auto. }
  destruct H0 as (Hs & Hi & He).
  pose proof (dirk_loop s0 (ns T) (le_n _)) as L. cbn zeta in L.
  set (s1 := for_range (ns T) (dirk_solve_stage T G solve semi dt uf t) s0) in *.
  destruct L as (Li & Le & _ & LS & Lk).
  assert (Ho : sol_old s1 = sol s).
  { destruct (ns T) as [|m'] eqn:En; [lia|]. destruct (LS m' eq_refl) as [A _]. rewrite A, Hs. reflexivity. }
  cbn [sol sol_old kk ini env set_sol dirk_get_final].
  split; [|split].
  - exists (kk s1). split.
    + intros i Hlt. rewrite (Lk i Hlt), He, Hs. reflexivity.
    + rewrite Ho. apply along_vlin.
  - rewrite Le, He. reflexivity.
  - rewrite Li. exact Hi.
Qed.
End DIRK.

(** ** Diagonally implicit integrator, solution form *)

Section UFORM.
Context {D Env : Type}.
Variable T : tableau.
Variable G : Env -> (D -> R) -> (D -> R) -> D -> R.
Variable solve : ((D -> R) -> D -> R) -> (D -> R) -> D -> R.
Variable semi : bool.
Variable dt : R.
Variable uf : option (R -> Env -> Env).
Variable mass : (D -> R) -> D -> R.
Variable t : R.

Hypothesis Hsolve : exact_solver solve.
Hypothesis Hdt : dt <> 0.
Hypothesis Hdiag : forall i, (i < ns T)%nat -> ta T i i <> 0.

Definition solvable_uform : Prop :=
  forall i (e : Env) (base u : D -> R), (i < ns T)%nat ->
    exists y : D -> R, forall x, mass y x = base x + dt * ta T i i * G e y (if semi then u else y) x.

Hypothesis Hsolvable : solvable_uform.

Let E (e : Env) i := forced uf (abscissae t dt (tc T) i) e.

Lemma uform_loop (s : st) m : (m <= ns T)%nat ->
  let s' := for_range m (uform_solve_stage T G solve semi dt uf mass t) s in
  ini s' = ini s /\
  env s' = E (env s) m /\
  (m = O -> sol s' = sol s) /\
  (m <> O -> sol_old s' = sol s) /\
  exists y : nat -> D -> R,
   (forall m', m = S m' -> sol s' = y m') /\
   (forall i, (i < m)%nat -> (i < ns T - 1)%nat ->
     kk s' i = G (E (env s) (S i)) (y i) (if semi then sol s else y i)) /\
   (forall i x, (i < m)%nat ->
     mass (y i) x = mass (sol s) x
       + dt * rsum i (fun j => ta T i j * G (E (env s) (S j)) (y j) (if semi then sol s else y j) x)
       + dt * ta T i i * G (E (env s) (S i)) (y i) (if semi then sol s else y i) x).
Proof.
  induction m; intros Hm; cbn [for_range].
  - split; [reflexivity|]. split; [unfold E; destruct uf; reflexivity|].
    split; [reflexivity|]. split; [congruence|].
    exists (fun _ => sol s). split; [intros; lia|]. split; intros; lia.
  - destruct IHm as (Hi & He & H0 & HS & y & Hy & Hk & Hmass); [lia|].
    set (s1 := for_range m (uform_solve_stage T G solve semi dt uf mass t) s) in *. clearbody s1.
    unfold uform_solve_stage.
    set (s2 := if Nat.eqb m 0 then set_old (sol s1) s1 else s1).
    set (s3 := set_env (force uf (t + tc T m * dt) (env s2)) s2).
    assert (Hs2 : sol_old s2 = sol s /\ kk s2 = kk s1 /\ env s2 = env s1 /\ ini s2 = ini s1).
    { unfold s2. destruct m; cbn [Nat.eqb]; cbn.
      - rewrite H0 by reflexivity. auto.
      - rewrite HS by congruence. auto. }
    destruct Hs2 as (P1 & P3 & P4 & P5).
    assert (He3 : env s3 = E (env s) (S m)).
    { unfold s3. cbn. unfold E. rewrite forced_S, P4, He. reflexivity. }
    assert (Q1 : sol_old s3 = sol s) by exact P1.
    assert (Q3 : kk s3 = kk s1) by exact P3.
    assert (Hex : exists v, forall x, uform_residual T G semi dt mass m s3 v x = 0).
    { destruct (Hsolvable m (env s3) (fun x => mass (sol s) x + vlin m (fun j => dt * ta T m j) (kk s3) x) (sol s)) as (v & Hv); [lia|].
      exists v. intros x. unfold uform_residual. rewrite Hv, Q1. ring. }
    pose proof (Hsolve (uform_residual T G semi dt mass m s3) (sol s3) Hex) as Hroot.
    set (ynew := solve (uform_residual T G semi dt mass m s3) (sol s3)) in *.
    set (s4 := set_sol ynew s3).
    assert (Hroot' : forall x, mass ynew x = mass (sol s) x
       + dt * rsum m (fun j => ta T m j * G (E (env s) (S j)) (y j) (if semi then sol s else y j) x)
       + dt * ta T m m * G (E (env s) (S m)) ynew (if semi then sol s else ynew) x).
    { intros x. specialize (Hroot x). unfold uform_residual in Hroot.
      rewrite Q1, Q3, He3 in Hroot. unfold vlin in Hroot.
      rewrite (rsum_ext m _ (fun j => dt * (ta T m j * G (E (env s) (S j)) (y j) (if semi then sol s else y j) x))) in Hroot.
      2:{ intros j Hj. rewrite Hk by lia. ring. }
      rewrite rsum_scal in Hroot. lra. }
    assert (Hkex : exists k, forall x, uform_kform T dt mass m s4 k x = 0).
    { exists (fun x => / (dt * ta T m m) * (mass (sol s4) x - mass (sol_old s4) x - vlin m (fun j => dt * ta T m j) (kk s4) x)).
      intros x. unfold uform_kform. field. split; [apply Hdiag; lia|exact Hdt]. }
    pose proof (Hsolve (uform_kform T dt mass m s4) (kk s4 m) Hkex) as Hkroot.
    set (knew := solve (uform_kform T dt mass m s4) (kk s4 m)) in *.
    assert (Hknew : knew = G (E (env s) (S m)) ynew (if semi then sol s else ynew)).
    { fext x. specialize (Hkroot x). unfold uform_kform in Hkroot.
      change (sol s4) with ynew in Hkroot. change (sol_old s4) with (sol_old s3) in Hkroot.
      change (kk s4) with (kk s3) in Hkroot. rewrite Q1, Q3 in Hkroot. unfold vlin in Hkroot.
      rewrite (rsum_ext m _ (fun j => dt * (ta T m j * G (E (env s) (S j)) (y j) (if semi then sol s else y j) x))) in Hkroot.
      2:{ intros j Hj. rewrite Hk by lia. ring. }
      rewrite rsum_scal in Hkroot. rewrite Hroot' in Hkroot.
      assert (Hne : dt * ta T m m <> 0) by (apply Rmult_integral_contrapositive_currified; [exact Hdt|apply Hdiag; lia]).
      apply (Rmult_eq_reg_l (dt * ta T m m)); [|exact Hne]. lra. }
    set (s5 := if Nat.ltb m (ns T - 1) then set_k m knew s4 else s4).
    assert (Hs5 : sol s5 = ynew /\ sol_old s5 = sol s /\ env s5 = E (env s) (S m) /\ ini s5 = ini s).
    { unfold s5. destruct (Nat.ltb m (ns T - 1)); cbn; rewrite ?P1, ?P5; (split; [reflexivity|split; [first [exact P1|reflexivity]|split; [exact He3|exact Hi]]]). }
    destruct Hs5 as (S1 & S2 & S3 & S4).
    split; [exact S4|]. split; [exact S3|]. split; [intros; lia|]. split; [intros; exact S2|].
    exists (fun j => if Nat.eqb j m then ynew else y j).
    split; [|split].
    + intros m' Hm'. injection Hm' as <-. rewrite Nat.eqb_refl. exact S1.
    + intros i Hlt Hn. unfold s5.
      destruct (Nat.eq_dec i m) as [->|Hne].
      * assert (Hb : Nat.ltb m (ns T - 1) = true) by (apply Nat.ltb_lt; lia). rewrite Hb.
        cbn. rewrite upd_same, Nat.eqb_refl. exact Hknew.
      * assert (Hkk : kk s5 i = kk s1 i).
        { unfold s5. destruct (Nat.ltb m (ns T - 1)); cbn; [rewrite upd_other by lia|]; rewrite P3; reflexivity. }
        fold s5. rewrite Hkk. replace (Nat.eqb i m) with false by (symmetry; apply Nat.eqb_neq; lia).
        apply Hk; lia.
    + intros i x Hlt.
      assert (Hy' : forall j, (j < i)%nat -> (if Nat.eqb j m then ynew else y j) = y j).
      { intros j Hj. replace (Nat.eqb j m) with false by (symmetry; apply Nat.eqb_neq; lia). reflexivity. }
      rewrite (rsum_ext i _ (fun j => ta T i j * G (E (env s) (S j)) (y j) (if semi then sol s else y j) x)).
      2:{ intros j Hj. rewrite Hy' by exact Hj. reflexivity. }
      destruct (Nat.eq_dec i m) as [->|Hne].
      * rewrite Nat.eqb_refl. apply Hroot'.
      * replace (Nat.eqb i m) with false by (symmetry; apply Nat.eqb_neq; lia). apply Hmass. lia.
Qed.

(** stage values and tendencies of a solution-form step *)
Lemma uform_advance_spec (s : st) : (0 < ns T)%nat ->
  let s' := uform_advance T G solve semi dt uf mass t s in
  (exists y k : nat -> D -> R,
    (forall i, (i < ns T)%nat ->
       mass (y i) = along (mass (sol s)) dt (S i) (ta T i) k /\
       k i = G (E (env s) (S i)) (y i) (if semi then sol s else y i)) /\
    sol s' = y (ns T - 1)%nat) /\
  env s' = E (env s) (ns T) /\ ini s' = true.
Proof.
  intros Hn. unfold uform_advance.
  set (s0 := if ini s then s else uform_initialize (sol s) s).
  assert (H0 : sol s0 = sol s /\ ini s0 = true /\ env s0 = env s).
  { unfold s0. destruct (ini s) eqn:Ei; cbn; auto. }
  destruct H0 as (Hs & Hi & He).
  pose proof (uform_loop s0 (ns T) (le_n _)) as L. cbn zeta in L.
  set (s1 := for_range (ns T) (uform_solve_stage T G solve semi dt uf mass t) s0) in *.
  destruct L as (Li & Le & _ & _ & y & Ly & _ & Lm).
  rewrite Hs, He in *.
  split; [|split; [exact Le|congruence]].
  exists y, (fun i => G (E (env s) (S i)) (y i) (if semi then sol s else y i)).
  split.
  - intros i Hlt. split; [|reflexivity]. rewrite along_rsum. fext x. rewrite (Lm i x Hlt). simpl. ring.
  - apply Ly. lia.
Qed.
End UFORM.

(** ** Implicit-explicit integrator *)

Section IMEX.
Context {D Env : Type}.
Variables TI TE : tableau.
Variable GI : Env -> (D -> R) -> (D -> R) -> D -> R.
Variable FE : Env -> (D -> R) -> D -> R.
Variable solve : ((D -> R) -> D -> R) -> (D -> R) -> D -> R.
Variable semi : bool.
Variable dt : R.
Variable uf : option (R -> Env -> Env).
Variable t : R.

Hypothesis Hsolve : exact_solver solve.
Hypothesis Hsolvable : solvable_stages TI GI dt.
Hypothesis Hns : ns TI = ns TE.
Hypothesis Hdt : dt <> 0.

Lemma abscissae2_S cI cE n :
  abscissae2 t dt cI cE (S n) = abscissae2 t dt cI cE n ++ [t + cI n * dt; t + cE n * dt].
Proof. unfold abscissae2. rewrite seq_S, flat_map_app. simpl. reflexivity. Qed.

Let A2 := abscissae2 t dt (tc TI) (tc TE).
Let EI (e : Env) i := forced uf (A2 i ++ [t + tc TI i * dt]) e.
Let EE (e : Env) i := forced uf (A2 (S i)) e.

Definition shared (s : @imst D Env) : Prop := sol (dk s) = sol (ek s) /\ env (dk s) = env (ek s).

Let base (u : D -> R) i (te : nat -> D -> R) := vadd u (vlin i (ta TE i) te).
Let stage (u : D -> R) i (te kI : nat -> D -> R) :=
  vadd (base u i te) (vlin (S i) (fun j => dt * ta TI i j) kI).

Lemma vlin_ext n (c : nat -> R) (k k' : nat -> D -> R) :
  (forall j, (j < n)%nat -> k j = k' j) -> vlin n c k = vlin n c k'.
Proof. intros H. unfold vlin. fext x. apply rsum_ext. intros j Hj. rewrite H by exact Hj. reflexivity. Qed.

Lemma imex_loop (s : imst) m : (m <= ns TE)%nat -> shared s ->
  let s' := for_range m (imex_solve_stage TI TE GI FE true solve semi dt uf t) s in
  shared s' /\
  ini (ek s') = ini (ek s) /\ ini (dk s') = ini (dk s) /\
  sol_old (ek s') = sol_old (ek s) /\
  env (ek s') = forced uf (A2 m) (env (ek s)) /\
  forall i, (i < m)%nat ->
    kk (dk s') i = GI (EI (env (ek s)) i) (stage (sol_old (ek s)) i (kk (ek s')) (kk (dk s')))
                     (base (sol_old (ek s)) i (kk (ek s'))) /\
    kk (ek s') i = vscale dt (FE (EE (env (ek s)) i) (stage (sol_old (ek s)) i (kk (ek s')) (kk (dk s')))).
Proof.
  induction m; intros Hm Hsh; cbn [for_range].
  - repeat split; auto; try apply Hsh. unfold A2, abscissae2. simpl. destruct uf; reflexivity.
    all: intros; lia.
  - destruct IHm as (Hsh' & Hie & Hid & Ho & He & Hk); [lia|exact Hsh|].
    set (s1 := for_range m (imex_solve_stage TI TE GI FE true solve semi dt uf t) s) in *. clearbody s1.
    set (u := sol_old (ek s)) in *. set (e0 := env (ek s)) in *.
    destruct Hsh' as [Hshs Hshe].
    (* 1: explicit part of the stage value *)
    set (s2 := on_erk (erk_update_solution TE true false m) s1).
    assert (A : sol (ek s2) = base u m (kk (ek s1)) /\ sol (dk s2) = base u m (kk (ek s1)) /\
                sol_old (ek s2) = u /\ kk (ek s2) = kk (ek s1) /\ kk (dk s2) = kk (dk s1) /\
                env (ek s2) = env (ek s1) /\ env (dk s2) = env (ek s1) /\
                ini (ek s2) = ini (ek s1) /\ ini (dk s2) = ini (dk s1)).
    { unfold s2, on_erk, erk_update_solution. cbn [andb].
      destruct (Nat.ltb 0 m) eqn:Em; cbn; rewrite Ho; repeat split; auto.
      - apply Nat.ltb_ge in Em. assert (m = O) by lia. subst m. unfold base, vadd, vlin. fext x. simpl. ring.
      - apply Nat.ltb_ge in Em. assert (m = O) by lia. subst m. unfold base, vadd, vlin. fext x. simpl. ring. }
    destruct A as (A1 & A2' & A3 & A4 & A5 & A6 & A7 & A8 & A9).
    (* 2: reference solution *)
    set (s3 := on_dirk (set_old (sol (ek s2))) s2).
    (* 3: implicit solve *)
    set (d4 := dirk_solve_tendency TI GI solve semi dt uf m t (dk s3)).
    set (s4 := on_dirk (dirk_solve_tendency TI GI solve semi dt uf m t) s3).
    assert (Hi3 : sol_old (dk s3) = base u m (kk (ek s1)) /\ sol (dk s3) = base u m (kk (ek s1)) /\
                  kk (dk s3) = kk (dk s1) /\ env (dk s3) = env (ek s1) /\ ini (dk s3) = ini (dk s1)).
    { unfold s3. cbn. auto. }
    destruct Hi3 as (B1 & B2 & B3 & B4 & B5).
    set (knew := kk d4 m).
    assert (Hd4 : sol_old d4 = base u m (kk (ek s1)) /\ sol d4 = base u m (kk (ek s1)) /\
                  kk d4 = upd (kk (dk s1)) m knew /\ env d4 = EI e0 m /\ ini d4 = ini (dk s1) /\
                  knew = GI (EI e0 m) (vadd (base u m (kk (ek s1))) (vlin (S m) (fun j => ta TI m j * dt) (upd (kk (dk s1)) m knew)))
                            (base u m (kk (ek s1)))).
    { unfold knew, d4, dirk_solve_tendency.
      set (x2 := if Nat.eqb m 0 then set_old (sol (dk s3)) (dk s3) else dk s3).
      assert (X : sol_old x2 = base u m (kk (ek s1)) /\ sol x2 = base u m (kk (ek s1)) /\
                  kk x2 = kk (dk s1) /\ env x2 = env (ek s1) /\ ini x2 = ini (dk s1)).
      { unfold x2. destruct (Nat.eqb m 0); cbn; auto. }
      destruct X as (X1 & X2 & X3 & X4 & X5).
      assert (Xe : force uf (t + tc TI m * dt) (env x2) = EI e0 m).
      { rewrite X4, He. unfold EI. rewrite forced_app, force_forced. reflexivity. }
      rewrite Xe. set (x3 := set_env (EI e0 m) x2).
      pose proof (dirk_stage_root TI GI solve semi dt Hsolve Hsolvable m x3 (kk x3 m)) as Hroot.
      cbn zeta in Hroot. rewrite Hns in Hroot. specialize (Hroot ltac:(lia)).
      set (kn := solve (dirk_residual TI GI semi dt m x3) (kk x3 m)) in *.
      change (env x3) with (EI e0 m) in Hroot.
      change (sol_old x3) with (sol_old x2) in Hroot. change (sol x3) with (sol x2) in Hroot.
      change (kk x3) with (kk x2) in Hroot. rewrite X1, X2, X3 in Hroot.
      cbn [sol sol_old kk ini env set_k]. rewrite upd_same.
      change (sol_old x3) with (sol_old x2). change (sol x3) with (sol x2).
      change (kk x3) with (kk x2). change (ini x3) with (ini x2). change (env x3) with (EI e0 m).
      rewrite X1, X2, X3, X5.
      repeat split; auto. rewrite Hroot at 1. destruct semi; reflexivity. }
    destruct Hd4 as (D1 & D2 & D3 & D4 & D5 & D6).
    (* 4: stage value *)
    set (s5 := on_dirk (dirk_update_solution TI dt m) s4).
    assert (Hs5 : dk s5 = set_sol (vadd (base u m (kk (ek s1))) (vlin (S m) (fun j => dt * ta TI m j) (upd (kk (dk s1)) m knew))) d4 /\
                  sol (ek s5) = vadd (base u m (kk (ek s1))) (vlin (S m) (fun j => dt * ta TI m j) (upd (kk (dk s1)) m knew)) /\
                  env (ek s5) = EI e0 m /\ kk (ek s5) = kk (ek s1) /\ sol_old (ek s5) = u /\ ini (ek s5) = ini (ek s1)).
    { unfold s5, s4, on_dirk. cbn [dk ek]. fold d4. unfold dirk_update_solution. rewrite D1, D3.
      cbn [dk ek sol sol_old kk ini env set_sol set_env set_old s3 on_dirk]. rewrite D4. repeat split; auto. }
    destruct Hs5 as (F1 & F2 & F3 & F4 & F5 & F6).
    set (ynew := vadd (base u m (kk (ek s1))) (vlin (S m) (fun j => dt * ta TI m j) (upd (kk (dk s1)) m knew))) in *.
    (* 5: explicit tendency *)
    change (imex_solve_stage TI TE GI FE true solve semi dt uf t m s1)
      with (on_erk (erk_solve_tendency TE FE true dt uf m t) s5).
    unfold on_erk, erk_solve_tendency. rewrite F3.
    assert (Hee : force uf (t + tc TE m * dt) (EI e0 m) = EE e0 m).
    { unfold EE, EI, A2. rewrite abscissae2_S, force_forced.
      rewrite !forced_app. change [t + tc TI m * dt; t + tc TE m * dt] with ([t + tc TI m * dt] ++ [t + tc TE m * dt]).
      rewrite forced_app. reflexivity. }
    rewrite Hee.
    cbn [sol sol_old kk ini env set_sol set_k set_env dk ek].
    rewrite F1, F2, F4, F5, F6.
    cbn [sol sol_old kk ini env set_sol]. rewrite D3.
    split; [split; cbn [sol dk ek set_k set_env set_sol env]; [symmetry; exact F2|reflexivity]|].
    split; [exact Hie|]. split; [rewrite D5; exact Hid|]. split; [reflexivity|].
    split; [reflexivity|].
    assert (Hb' : forall i, (i <= m)%nat -> forall v, base u i (upd (kk (ek s1)) m v) = base u i (kk (ek s1))).
    { intros i Hi v. unfold base. f_equal. apply vlin_ext. intros j Hj. rewrite upd_other by lia. reflexivity. }
    assert (Hst' : forall i, (i < m)%nat -> forall v w,
       stage u i (upd (kk (ek s1)) m v) (upd (kk (dk s1)) m w) = stage u i (kk (ek s1)) (kk (dk s1))).
    { intros i Hi v w. unfold stage. rewrite Hb' by lia. f_equal. apply vlin_ext.
      intros j Hj. rewrite upd_other by lia. reflexivity. }
    intros i Hlt. destruct (Nat.eq_dec i m) as [->|Hne].
    + rewrite !upd_same. rewrite Hb' by lia.
      assert (Hy : forall v, stage u m (upd (kk (ek s1)) m v) (upd (kk (dk s1)) m knew) = ynew).
      { intros v. unfold stage. rewrite Hb' by lia. reflexivity. }
      rewrite Hy. split; [|reflexivity].
      rewrite D6 at 1. f_equal. unfold ynew. f_equal. unfold vlin. fext x. apply rsum_ext. intros; ring.
    + rewrite !(upd_other _ m _ i) by lia. rewrite Hst', Hb' by lia. apply Hk. lia.
Qed.

Lemma imex_advance_spec (s : imst) : shared s ->
  let s' := imex_advance TI TE GI FE true solve semi dt uf t s in
  imex_step (ns TE) (ta TI) (tb TI) (ta TE) (tb TE) GI FE dt
    (fun i => EI (env (ek s)) i) (fun i => EE (env (ek s)) i)
    (sol_old (ek s)) (sol (ek s')) /\
  env (ek s') = forced uf (A2 (ns TE)) (env (ek s)) /\
  sol_old (ek s') = sol (ek s') /\ shared s' /\
  ini (ek s') = ini (ek s) /\ ini (dk s') = ini (dk s).
Proof.
  intros Hsh. unfold imex_advance.
  pose proof (imex_loop s (ns TE) (le_n _) Hsh) as L. cbn zeta in L.
  set (s1 := for_range (ns TE) (imex_solve_stage TI TE GI FE true solve semi dt uf t) s) in *.
  destruct L as (Lsh & Lie & Lid & Lo & Le & Lk).
  set (u := sol_old (ek s)) in *.
  assert (Hal : forall v n w (k : nat -> D -> R), vadd v (vlin n w k) = along v dt n w (fun j => vscale (/ dt) (k j))).
  { intros v n w k. rewrite along_rsum. unfold vadd, vlin. fext x. f_equal.
    rewrite <- rsum_scal. apply rsum_ext. intros j Hj. unfold vscale. field. exact Hdt. }
  unfold imex_get_final, on_erk, on_dirk, erk_get_final, dirk_get_final.
  cbn [sol sol_old kk ini env set_sol set_k set_env set_old dk ek].
  split; [|split; [exact Le|split; [reflexivity|split; [split; reflexivity|split; [exact Lie|exact Lid]]]]].
  exists (kk (dk s1)), (fun i => vscale (/ dt) (kk (ek s1) i)). split.
  - intros i Hlt. cbn zeta. destruct (Lk i Hlt) as [L1 L2].
    unfold stage, base in L1, L2. rewrite (Hal u i (ta TE i)) in L1, L2.
    rewrite (along_vlin dt _ (S i) (ta TI i)) in L1, L2.
    split; [exact L1|].
    rewrite L2. unfold vscale at 1 2. fext x.
    rewrite <- Rmult_assoc, Rinv_l, Rmult_1_l by exact Hdt. reflexivity.
  - rewrite Lo, (Hal u (ns TE) (tb TE)), Hns. apply along_vlin.
Qed.
End IMEX.
