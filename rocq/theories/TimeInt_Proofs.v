From Coq Require Import Reals List String Arith Bool Lia Lra FunctionalExtensionality.
From Verif Require Import RK_Model RK_Spec RK_Proofs RK_Proofs2 RK_Proofs3 RK_Proofs4 TimeInt_Model TimeInt_Spec.
Import ListNotations.
Open Scope R_scope.

(** ** Linear functionals along steps *)
Section Inv.
Context {D Env : Type}.
Variable l : (D -> R) -> R.
Hypothesis Hl : linear l.

Lemma inv_explicit n a b (F : Env -> (D -> R) -> D -> R) dt e u u' :
  (forall e v, l (F e v) = 0) -> explicit_step n a b F dt e u u' -> l u' = l u.
Proof.
  intros HF (k & Hk & ->). apply (lin_along_zero l Hl). intros j Hj. rewrite Hk by exact Hj. apply HF.
Qed.

Lemma inv_linearised n a b (G : Env -> (D -> R) -> (D -> R) -> D -> R) dt e lin u u' :
  (forall e v w, l (G e v w) = 0) -> linearised_step n a b G dt e lin u u' -> l u' = l u.
Proof.
  intros HF (k & Hk & ->). apply (lin_along_zero l Hl). intros j Hj. rewrite Hk by exact Hj. apply HF.
Qed.

Lemma inv_imex n aI bI aE bE (GI : Env -> (D -> R) -> (D -> R) -> D -> R) (FE : Env -> (D -> R) -> D -> R) dt eI eE u u' :
  (forall e v w, l (GI e v w) = 0) -> (forall e v, l (FE e v) = 0) ->
  imex_step n aI bI aE bE GI FE dt eI eE u u' -> l u' = l u.
Proof.
  intros HI HE (kI & kE & Hk & ->). rewrite !(lin_along_zero l Hl); [reflexivity| |].
  - intros j Hj. destruct (Hk j Hj) as [_ E]. rewrite E. apply HE.
  - intros j Hj. destruct (Hk j Hj) as [E _]. rewrite E. apply HI.
Qed.

Lemma inv_shuosher n alpha beta (F : Env -> (D -> R) -> D -> R) dt e u u' :
  (forall i, (i < n)%nat -> rsum (S i) (alpha (S i)) = 1) ->
  (forall e v, l (F e v) = 0) -> shuosher_step n alpha beta F dt e u u' -> l u' = l u.
Proof.
  intros Hr HF (y & Hy0 & Hy & ->). destruct Hl as [La Ls].
  assert (H : forall i, (i <= n)%nat -> l (y i) = l u).
  { intros i. induction i as [i IH] using lt_wf_ind. intros Hi. destruct i as [|i]; [rewrite Hy0; reflexivity|].
    rewrite Hy by lia.
    rewrite (La (fun x => Sum (S i) (fun j => alpha (S i) j * y j x)) (fun x => dt * Sum (S i) (fun j => beta (S i) j * F (e j) (y j) x))).
    rewrite (Ls dt (fun x => Sum (S i) (fun j => beta (S i) j * F (e j) (y j) x))).
    replace (fun x => Sum (S i) (fun j => alpha (S i) j * y j x)) with (fun x => rsum (S i) (fun j => alpha (S i) j * y j x))
      by (fext x; rewrite Sum_rsum; reflexivity).
    replace (fun x => Sum (S i) (fun j => beta (S i) j * F (e j) (y j) x)) with (fun x => rsum (S i) (fun j => beta (S i) j * F (e j) (y j) x))
      by (fext x; rewrite Sum_rsum; reflexivity).
    rewrite (lin_rsum l Hl (S i) (alpha (S i)) y), (lin_rsum l Hl (S i) (beta (S i)) (fun j => F (e j) (y j))).
    rewrite (rsum_zero (S i) (fun j => beta (S i) j * l (F (e j) (y j)))).
    2:{ intros j Hj. rewrite HF. ring. }
    rewrite (rsum_ext (S i) (fun j => alpha (S i) j * l (y j)) (fun j => alpha (S i) j * l u)).
    2:{ intros j Hj. rewrite IH by lia. reflexivity. }
    rewrite rsum_scal_r, Hr by lia. ring. }
  apply H. lia.
Qed.
End Inv.

(** ** Steady states *)
Section Steady.
Context {D Env : Type}.

Lemma steady_explicit n a b (F : Env -> (D -> R) -> D -> R) dt e u u' :
  (forall e, F e u = fun _ => 0) -> explicit_step n a b F dt e u u' -> u' = u.
Proof.
  intros HF (k & Hk & ->).
  assert (H : forall i, (i < n)%nat -> k i = fun _ => 0).
  { intros i. induction i as [i IH] using lt_wf_ind. intros Hi. rewrite Hk by exact Hi.
    rewrite (along_zero u dt i (a i) k); [apply HF|]. intros j Hj. apply IH; lia. }
  apply along_zero. exact H.
Qed.

Lemma steady_linearised n a b (G : Env -> (D -> R) -> (D -> R) -> D -> R) dt e lin u u' :
  (forall i k, (forall j, (j < i)%nat -> k j = fun _ => 0) -> lin i k = u) ->
  (forall e, G e u u = fun _ => 0) ->
  (forall i e k, (i < n)%nat -> k = G e (fun x => u x + dt * a i i * k x) u -> k = fun _ => 0) ->
  linearised_step n a b G dt e lin u u' -> u' = u.
Proof.
  intros Hlin HG Hu (k & Hk & ->).
  assert (H : forall i, (i < n)%nat -> k i = fun _ => 0).
  { intros i. induction i as [i IH] using lt_wf_ind. intros Hi.
    apply (Hu i (e i) (k i) Hi). rewrite (Hk i Hi) at 1.
    rewrite Hlin by (intros j Hj; apply IH; lia). f_equal. rewrite along_rsum. fext x. cbn [rsum].
    rewrite rsum_zero; [ring|]. intros j Hj. rewrite IH by lia. ring. }
  apply along_zero. exact H.
Qed.
End Steady.

(** ** Chaining *)
Lemma history_run {V E S : Type} (step : R -> V * E -> V * E -> Prop)
    (obs : S -> V * E) (adv : R -> S -> S) (chg : (V -> V) -> S -> S) :
  (forall t s, step t (obs s) (obs (adv t s))) ->
  (forall g s, obs (chg g s) = (g (fst (obs s)), snd (obs s))) ->
  forall ops s, history step ops (obs s)
    (obs (fold_left (fun s o => match o with Advance t => adv t s | Change g => chg g s end) ops s)).
Proof.
  intros Ha Hc. induction ops as [|o ops IH]; intros s; cbn [fold_left]; [constructor|].
  destruct o as [t|g].
  - apply history_advance with (obs (adv t s)); [apply Ha|apply IH].
  - destruct (obs s) as [v e] eqn:Eo. apply history_change.
    specialize (IH (chg g s)). rewrite Hc, Eo in IH. exact IH.
Qed.

(** ** Lagged coefficients *)
Section Fields.
Context {D Val B : Type}.
Variable keys : list string.
Variable kind : string -> ckind.

Lemma update_fields_old_spec (c : @coefs Val B) k :
  oldv (update_fields_old keys kind c) k =
  match kind k with
  | KFunction => if in_dec string_dec k keys then val c k else oldv c k
  | _ => oldv c k
  end.
Proof.
  unfold update_fields_old. cbn [oldv].
  assert (H : forall ks o,
    fold_left (fun o k => match kind k with
      | KFunction => fun k' => if String.eqb k' k then val c k else o k' | _ => o end) ks o k
    = match kind k with
      | KFunction => if in_dec string_dec k ks then val c k else o k
      | _ => o k end).
  { induction ks as [|k0 ks IH]; intros o; cbn [fold_left].
    - destruct (kind k); try reflexivity.
    - rewrite IH. destruct (kind k) eqn:E; try (destruct (kind k0) eqn:E0; try reflexivity;
        destruct (String.eqb_spec k k0); [subst; congruence|reflexivity]).
      destruct (in_dec string_dec k ks) as [Hin|Hin]; destruct (in_dec string_dec k (k0 :: ks)) as [Hin'|Hin'].
      + reflexivity.
      + exfalso. apply Hin'. right. exact Hin.
      + destruct Hin' as [->|Hin']; [|contradiction]. rewrite E, String.eqb_refl. reflexivity.
      + destruct (kind k0); try reflexivity.
        destruct (String.eqb_spec k k0); [|reflexivity]. subst. exfalso. apply Hin'. left. reflexivity. }
  apply H.
Qed.

Lemma val_update c : val (update_fields_old (B := B) keys kind c) = @val Val B c.
Proof. reflexivity. Qed.
Lemma oth_update c : oth (update_fields_old (B := B) keys kind c) = @oth Val B c.
Proof. reflexivity. Qed.
End Fields.
