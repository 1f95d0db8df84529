(** Lemmas for C70: convex measures and monotone Runge-Kutta steps. *)

From Coq Require Import Reals List Arith Lia Lra FunctionalExtensionality.
From Verif Require Import RK_Model RK_Spec RK_Proofs RK_Proofs4 Stable_Spec.
Import ListNotations.
Open Scope R_scope.

Lemma jensen {D} (N : (D -> R) -> R) n (w : nat -> R) (y : nat -> D -> R) :
  convex_measure N -> (forall j, (j < n)%nat -> 0 <= w j) -> rsum n w = 1 ->
  N (fun x => rsum n (fun j => w j * y j x)) <= rsum n (fun j => w j * N (y j)).
Proof.
  intros HN Hw Hs.
  set (K := fun f : option D -> R => N (fun d => f (Some d)) <= f None).
  set (z := fun j (o : option D) => match o with Some d => y j d | None => N (y j) end).
  assert (HK : convex K).
  { intros f g a Ha Hf Hg. unfold K in *.
    eapply Rle_trans; [apply (HN (fun d => f (Some d)) (fun d => g (Some d)) a Ha)|].
    apply Rplus_le_compat; apply Rmult_le_compat_l; (lra || assumption). }
  apply (convex_comb K HK n w z Hw Hs).
  intros j Hj _. unfold K, z. apply Rle_refl.
Qed.

Lemma jensen1 {D} (N : (D -> R) -> R) n w0 (u : D -> R) (w : nat -> R) (y : nat -> D -> R) :
  convex_measure N -> 0 <= w0 -> (forall j, (j < n)%nat -> 0 <= w j) -> w0 + rsum n w = 1 ->
  N (fun x => w0 * u x + rsum n (fun j => w j * y j x)) <= w0 * N u + rsum n (fun j => w j * N (y j)).
Proof.
  intros HN H0 Hw Hs.
  set (w' := fun j => match j with O => w0 | S j => w j end).
  set (y' := fun j => match j with O => u | S j => y j end).
  assert (H := jensen N (S n) w' y' HN).
  replace (fun x => rsum (S n) (fun j => w' j * y' j x)) with (fun x => w0 * u x + rsum n (fun j => w j * y j x)) in H.
  - rewrite (rsum_front n (fun j => w' j * N (y' j))) in H. apply H.
    + intros [|j] Hj; cbn; [exact H0|apply Hw; lia].
    + rewrite rsum_front. exact Hs.
  - apply functional_extensionality; intros x. rewrite rsum_front. reflexivity.
Qed.

(** a shorter forward Euler step is bounded too *)
Lemma shorter_euler {D} (N : (D -> R) -> R) tau tau' F : convex_measure N ->
  0 <= tau' <= tau -> euler_bounded N tau F -> @euler_bounded D N tau' F.
Proof.
  intros HN Ht HE v. destruct (Req_dec tau 0) as [E|E].
  - replace tau' with tau by lra. apply HE.
  - replace (fun x => v x + tau' * F v x)
      with (fun x => (1 - tau' / tau) * v x + tau' / tau * (v x + tau * F v x))
      by (apply functional_extensionality; intros x; field; exact E).
    assert (Ha : 0 <= tau' / tau <= 1).
    { split.
      - apply Rmult_le_pos; [lra|]. left. apply Rinv_0_lt_compat. lra.
      - apply Rmult_le_reg_r with tau; [lra|]. unfold Rdiv. rewrite Rmult_assoc, Rinv_l by exact E. lra. }
    eapply Rle_trans; [apply (HN v _ _ Ha)|].
    assert (H := HE v). assert (H2 : tau' / tau * N (fun x => v x + tau * F v x) <= tau' / tau * N v).
    { apply Rmult_le_compat_l; [lra|exact H]. }
    lra.
Qed.

Definition row (n : nat) (a : nat -> nat -> R) (b : nat -> R) (i : nat) : nat -> R :=
  if Nat.ltb i n then a i else b.

(** a way of writing the stages as averages of forward Euler steps of size dt / r *)
Definition averaging (n : nat) (a : nat -> nat -> R) (b : nat -> R) (r : R)
    (alpha : nat -> nat -> R) (v : nat -> R) : Prop :=
  0 < r /\
  (forall i j, (i <= n)%nat -> (j < n)%nat -> 0 <= alpha i j) /\
  (forall i, (i <= n)%nat -> 0 <= v i) /\
  (forall i, (i <= n)%nat -> v i + rsum n (alpha i) = 1) /\
  (forall i j, (i < n)%nat -> (i < j)%nat -> (j < n)%nat -> alpha i j = 0) /\
  (forall i, (i < n)%nat -> alpha i i < 1) /\
  (forall i j, (i <= n)%nat -> (j < n)%nat ->
     r * row n a b i j = alpha i j + r * rsum n (fun k => alpha i k * a k j)) /\
  (forall i j, (i < n)%nat -> (i < j)%nat -> (j < n)%nat -> a i j = 0).

Lemma along_full {D} (u : D -> R) h n i w k : (i < n)%nat ->
  (forall j, (i < j)%nat -> (j < n)%nat -> w j = 0) ->
  along u h (S i) w k = along u h n w k.
Proof.
  intros Hi Hw. rewrite !along_rsum. apply functional_extensionality; intros x. f_equal. f_equal.
  symmetry. apply rsum_cut; [lia|]. intros j Hj. rewrite Hw by lia. ring.
Qed.

Lemma averaged_step {D Env} n a b r alpha v (F : Env -> (D -> R) -> D -> R) dt e u u' N tau :
  averaging n a b r alpha v -> convex_measure N ->
  (forall i, (i < n)%nat -> euler_bounded N tau (F (e i))) ->
  0 <= dt <= r * tau ->
  implicit_step n a b F dt e u u' -> N u' <= N u.
Proof.
  intros (Hr & Hal & Hv & Hsum & Hup & Hd & Hrel & Hlow) HN HE Hdt (k & Hk & Hu').
  set (h := dt / r).
  assert (Hh : 0 <= h <= tau).
  { unfold h. split.
    - apply Rmult_le_pos; [lra|]. left. apply Rinv_0_lt_compat. exact Hr.
    - apply Rmult_le_reg_r with r; [exact Hr|]. unfold Rdiv. rewrite Rmult_assoc, Rinv_l by lra. lra. }
  assert (HE' : forall i, (i < n)%nat -> euler_bounded N h (F (e i))).
  { intros i Hi. apply (shorter_euler N tau h _ HN Hh). apply HE. exact Hi. }
  set (y := fun i => along u dt n (row n a b i) k).
  set (z := fun i x => y i x + h * k i x).
  assert (Hy : forall i, (i < n)%nat -> along u dt (S i) (a i) k = y i).
  { intros i Hi. unfold y, row. replace (Nat.ltb i n) with true by (symmetry; apply Nat.ltb_lt; exact Hi).
    apply along_full; [exact Hi|]. intros j Hj1 Hj2. apply Hlow; assumption. }
  assert (Hrep : forall i, (i <= n)%nat -> y i = fun x => v i * u x + rsum n (fun j => alpha i j * z j x)).
  { intros i Hi. apply functional_extensionality; intros x. unfold z.
    rewrite (rsum_ext n _ (fun j => alpha i j * y j x + h * (alpha i j * k j x))) by (intros; ring).
    rewrite rsum_plus, rsum_scal.
    rewrite (rsum_ext n (fun j => alpha i j * y j x)
      (fun j => alpha i j * u x + dt * rsum n (fun l => alpha i j * a j l * k l x))).
    2:{ intros j Hj. unfold y, row. replace (Nat.ltb j n) with true by (symmetry; apply Nat.ltb_lt; exact Hj).
        rewrite along_rsum. rewrite (rsum_ext n (fun l => alpha i j * a j l * k l x) (fun l => alpha i j * (a j l * k l x))) by (intros; ring).
        rewrite rsum_scal. ring. }
    rewrite rsum_plus, rsum_scal_r, rsum_scal, rsum_swap.
    unfold y. rewrite along_rsum.
    assert (E : dt * rsum n (fun j => row n a b i j * k j x)
                = dt * rsum n (fun l => rsum n (fun j => alpha i j * a j l * k l x)) + h * rsum n (fun j => alpha i j * k j x)).
    { rewrite (rsum_ext n (fun j => row n a b i j * k j x)
        (fun j => / r * (alpha i j * k j x) + rsum n (fun m => alpha i m * a m j * k j x))).
      - rewrite rsum_plus, rsum_scal. unfold h. field. lra.
      - intros j Hj.
        rewrite (rsum_scal_r n (k j x) (fun m => alpha i m * a m j)).
        replace (row n a b i j) with (/ r * (r * row n a b i j)) by (field; lra).
        rewrite (Hrel i j Hi Hj). field. lra. }
    rewrite E. replace (v i) with (1 - rsum n (alpha i)) by (rewrite <- (Hsum i Hi); ring). ring. }
  assert (Hz : forall i, (i < n)%nat -> N (z i) <= N (y i)).
  { intros i Hi. unfold z. assert (H := HE' i Hi (y i)).
    rewrite (Hk i Hi), (Hy i Hi). exact H. }
  assert (Hbound : forall i, (i <= n)%nat -> N (y i) <= v i * N u + rsum n (fun j => alpha i j * N (z j))).
  { intros i Hi. rewrite (Hrep i Hi) at 1. apply jensen1; [exact HN|apply Hv; exact Hi| |apply Hsum; exact Hi].
    intros j Hj. apply Hal; assumption. }
  assert (Hstage : forall i, (i < n)%nat -> N (y i) <= N u).
  { intros i. induction i as [i IH] using lt_wf_ind. intros Hi.
    assert (B := Hbound i (Nat.lt_le_incl _ _ Hi)).
    assert (Hle : rsum n (fun j => alpha i j * N (z j))
                  <= rsum n (fun j => alpha i j * (if Nat.eqb j i then N (y i) else N u))).
    { assert (G : 0 <= rsum n (fun j => alpha i j * (if Nat.eqb j i then N (y i) else N u) - alpha i j * N (z j))).
      { apply rsum_nonneg. intros j Hj. destruct (Nat.eqb j i) eqn:E.
        - apply Nat.eqb_eq in E. subst j. assert (0 <= alpha i i) by (apply Hal; lia).
          assert (A := Rmult_le_compat_l _ _ _ H (Hz i Hi)). lra.
        - apply Nat.eqb_neq in E. destruct (Nat.lt_ge_cases i j) as [Hij|Hij].
          + rewrite (Hup i j Hi Hij Hj). lra.
          + assert (Hji : (j < i)%nat) by lia. assert (0 <= alpha i j) by (apply Hal; lia).
            assert (A := Rmult_le_compat_l _ _ _ H (Rle_trans _ _ _ (Hz j Hj) (IH j Hji Hj))). lra. }
      rewrite rsum_minus in G. lra. }
    assert (Heq : rsum n (fun j => alpha i j * (if Nat.eqb j i then N (y i) else N u))
                  = rsum n (alpha i) * N u + alpha i i * (N (y i) - N u)).
    { rewrite (rsum_ext n _ (fun j => alpha i j * N u + (if Nat.eqb j i then alpha i i * (N (y i) - N u) else 0))).
      - rewrite rsum_plus, rsum_scal_r. f_equal.
        rewrite (rsum_single n i) by (try exact Hi; intros j Hj Hne; apply Nat.eqb_neq in Hne; rewrite Hne; reflexivity).
        rewrite Nat.eqb_refl. reflexivity.
      - intros j Hj. destruct (Nat.eqb j i) eqn:E; [apply Nat.eqb_eq in E; subst j|]; ring. }
    assert (Hs := Hsum i (Nat.lt_le_incl _ _ Hi)). assert (Hdi := Hd i Hi).
    assert (F1 : (1 - alpha i i) * (N (y i) - N u) <= 0).
    { replace (v i) with (1 - rsum n (alpha i)) in B by lra. nra. }
    nra. }
  assert (B := Hbound n (Nat.le_refl n)).
  assert (Hle : rsum n (fun j => alpha n j * N (z j)) <= rsum n (alpha n) * N u).
  { assert (G : 0 <= rsum n (fun j => alpha n j * N u - alpha n j * N (z j))).
    { apply rsum_nonneg. intros j Hj. assert (0 <= alpha n j) by (apply Hal; lia).
      assert (A := Rmult_le_compat_l _ _ _ H (Rle_trans _ _ _ (Hz j Hj) (Hstage j Hj))). lra. }
    rewrite rsum_minus, rsum_scal_r in G. lra. }
  assert (Hyn : y n = u').
  { rewrite Hu'. unfold y, row. rewrite Nat.ltb_irrefl. reflexivity. }
  rewrite Hyn in B. assert (Hs := Hsum n (Nat.le_refl n)). nra.
Qed.

(** an explicit step is an implicit one with zeros on the diagonal *)
Lemma explicit_implicit {D Env} n a b (F : Env -> (D -> R) -> D -> R) dt e u u' :
  (forall i, (i < n)%nat -> a i i = 0) ->
  explicit_step n a b F dt e u u' -> implicit_step n a b F dt e u u'.
Proof.
  intros Ha (k & Hk & Hu). exists k. split; [|exact Hu].
  intros i Hi. rewrite (Hk i Hi) at 1. f_equal.
  rewrite !along_rsum. apply functional_extensionality; intros x. cbn [rsum].
  rewrite (Ha i Hi). ring.
Qed.
