From Coq Require Import Reals List Arith Bool Lia Lra FunctionalExtensionality.
From Verif Require Import RK_Model RK_Spec RK_Proofs RK_Proofs2 RK_Proofs3.
Import ListNotations.
Open Scope R_scope.

(** ** Linear functionals *)

Section Linear.
Context {D Env : Type}.
Variable l : (D -> R) -> R.
Hypothesis Hl : linear l.

Lemma lin_zero : l (fun _ => 0) = 0.
Proof.
  destruct Hl as [_ Hs]. specialize (Hs 0 (fun _ => 0)). cbv beta in Hs.
  rewrite Rmult_0_l in Hs. rewrite Rmult_0_l in Hs. exact Hs.
Qed.

Lemma lin_rsum n (w : nat -> R) (k : nat -> D -> R) :
  l (fun x => rsum n (fun j => w j * k j x)) = rsum n (fun j => w j * l (k j)).
Proof.
  destruct Hl as [Ha Hs]. induction n; simpl; [apply lin_zero|].
  rewrite (Ha (fun x => rsum n (fun j => w j * k j x)) (fun x => w n * k n x)).
  rewrite IHn, Hs. reflexivity.
Qed.

Lemma lin_along u h n w k : l (along u h n w k) = l u + h * rsum n (fun j => w j * l (k j)).
Proof.
  destruct Hl as [Ha Hs]. rewrite along_rsum.
  rewrite (Ha u (fun x => h * rsum n (fun j => w j * k j x))).
  rewrite (Hs h (fun x => rsum n (fun j => w j * k j x))), lin_rsum. reflexivity.
Qed.

Lemma lin_along_zero u h n w k : (forall j, (j < n)%nat -> l (k j) = 0) -> l (along u h n w k) = l u.
Proof.
  intros H. rewrite lin_along, (rsum_zero n). ring. intros i Hi. rewrite H by exact Hi. ring.
Qed.
End Linear.

Lemma along_zero {D} (u : D -> R) h n w k :
  (forall j, (j < n)%nat -> k j = fun _ => 0) -> along u h n w k = u.
Proof.
  intros H. rewrite along_rsum. fext x. rewrite (rsum_zero n); [ring|].
  intros i Hi. rewrite H by exact Hi. ring.
Qed.

(** ** Convex combinations *)

Lemma rsum_nonneg n f : (forall i, (i < n)%nat -> 0 <= f i) -> 0 <= rsum n f.
Proof.
  induction n; simpl; intros H; [lra|].
  assert (0 <= rsum n f) by (apply IHn; intros; apply H; lia).
  assert (0 <= f n) by (apply H; lia). lra.
Qed.

Lemma rsum_zero_inv n f : (forall i, (i < n)%nat -> 0 <= f i) -> rsum n f = 0 ->
  forall i, (i < n)%nat -> f i = 0.
Proof.
  induction n; simpl; intros H Hs i Hi; [lia|].
  assert (0 <= rsum n f) by (apply rsum_nonneg; intros; apply H; lia).
  assert (0 <= f n) by (apply H; lia).
  destruct (Nat.eq_dec i n) as [->|]; [lra|].
  apply IHn; [intros; apply H; lia|lra|lia].
Qed.

Lemma convex_comb {D} (K : (D -> R) -> Prop) : convex K ->
  forall n (w : nat -> R) (y : nat -> D -> R),
  (forall j, (j < n)%nat -> 0 <= w j) -> rsum n w = 1 ->
  (forall j, (j < n)%nat -> 0 < w j -> K (y j)) ->
  K (fun x => rsum n (fun j => w j * y j x)).
Proof.
  intros HK. induction n; intros w y Hw Hs Hy; simpl in Hs; [lra|].
  assert (H0 : 0 <= rsum n w) by (apply rsum_nonneg; intros; apply Hw; lia).
  assert (Hn : 0 <= w n) by (apply Hw; lia).
  destruct (Req_dec (rsum n w) 0) as [Hz|Hnz].
  - assert (Hall : forall j, (j < n)%nat -> w j = 0) by (apply rsum_zero_inv; [intros; apply Hw; lia|exact Hz]).
    replace (fun x => rsum (S n) (fun j => w j * y j x)) with (y n).
    + apply Hy; [lia|lra].
    + fext x. simpl. rewrite (rsum_zero n). 2:{ intros j Hj. rewrite Hall by exact Hj. ring. }
      replace (w n) with 1 by lra. ring.
  - set (r := rsum n w) in *.
    assert (HKn : K (fun x => rsum n (fun j => w j / r * y j x))).
    { apply IHn.
      - intros j Hj. apply Rmult_le_pos; [apply Hw; lia|]. left. apply Rinv_0_lt_compat. lra.
      - unfold Rdiv. rewrite rsum_scal_r. fold r. field. exact Hnz.
      - intros j Hj Hp. apply Hy; [lia|].
        assert (0 <= w j) by (apply Hw; lia). destruct (Req_dec (w j) 0) as [E|E]; [|lra].
        rewrite E in Hp. unfold Rdiv in Hp. lra. }
    destruct (Req_dec (w n) 0) as [Ewn|Ewn].
    + replace (fun x => rsum (S n) (fun j => w j * y j x)) with (fun x => rsum n (fun j => w j / r * y j x)); [exact HKn|].
      fext x. simpl. rewrite Ewn. replace r with 1 by lra.
      rewrite Rmult_0_l, Rplus_0_r. apply rsum_ext. intros; field.
    + assert (HKy : K (y n)) by (apply Hy; [lia|lra]).
      replace (fun x => rsum (S n) (fun j => w j * y j x))
        with (fun x => (1 - w n) * rsum n (fun j => w j / r * y j x) + w n * y n x).
      * apply (HK _ (y n) (w n)); [lra|exact HKn|exact HKy].
      * fext x. simpl. f_equal. rewrite <- rsum_scal. apply rsum_ext. intros j Hj.
        replace (1 - w n) with r by lra. field. exact Hnz.
Qed.

(** forward Euler with a shorter step keeps a convex set too *)
Lemma convex_euler {D} (K : (D -> R) -> Prop) u (f : D -> R) h h0 : convex K -> K u ->
  0 <= h <= h0 -> K (fun x => u x + h0 * f x) -> K (fun x => u x + h * f x).
Proof.
  intros HK Hu Hh H0. destruct (Req_dec h0 0) as [E|E].
  - replace (fun x => u x + h * f x) with u; [exact Hu|]. fext x. replace h with 0 by lra. ring.
  - replace (fun x => u x + h * f x) with (fun x => (1 - h / h0) * u x + h / h0 * (u x + h0 * f x)).
    + apply (HK u _ (h / h0)); [|exact Hu|exact H0]. split.
      * apply Rmult_le_pos; [lra|]. left. apply Rinv_0_lt_compat. lra.
      * apply Rmult_le_reg_r with h0; [lra|]. unfold Rdiv. rewrite Rmult_assoc, Rinv_l by exact E. lra.
    + fext x. field. exact E.
Qed.

(** Shu-Osher steps with non-negative coefficients are made of convex
    combinations of forward Euler steps *)
Lemma shuosher_ssp {D Env} n alpha beta (F : Env -> (D -> R) -> D -> R) dt dt0 e K u u' :
  convex K -> 0 <= dt ->
  (forall i j, (i < n)%nat -> (j <= i)%nat -> 0 <= alpha (S i) j) ->
  (forall i, (i < n)%nat -> rsum (S i) (alpha (S i)) = 1) ->
  (forall i j, (i < n)%nat -> (j < i)%nat -> beta (S i) j = 0) ->
  (forall i, (i < n)%nat -> 0 <= beta (S i) i /\ beta (S i) i * dt <= alpha (S i) i * dt0) ->
  (forall i, (i < n)%nat -> 0 < alpha (S i) i) ->
  (forall i v, (i < n)%nat -> K v -> K (fun x => v x + dt0 * F (e i) v x)) ->
  shuosher_step n alpha beta F dt e u u' -> K u -> K u'.
Proof.
  intros HK Hdt Hal Hrow Hb0 Hb Hap HE (y & Hy0 & Hy & Hu) HKu.
  rewrite Hu.
  assert (Hall : forall i, (i <= n)%nat -> K (y i)).
  { intros i. induction i as [i IH] using lt_wf_ind. intros Hi.
    destruct i as [|i]; [rewrite Hy0; exact HKu|].
    rewrite Hy by lia.
    set (h := beta (S i) i * dt / alpha (S i) i).
    assert (Hpos : 0 < alpha (S i) i) by (apply Hap; lia).
    assert (Hh : 0 <= h <= dt0).
    { destruct (Hb i) as [B1 B2]; [lia|]. unfold h. split.
      - apply Rmult_le_pos; [apply Rmult_le_pos; assumption|]. left. apply Rinv_0_lt_compat. exact Hpos.
      - apply Rmult_le_reg_r with (alpha (S i) i); [exact Hpos|].
        unfold Rdiv. rewrite Rmult_assoc, Rinv_l by lra. lra. }
    set (z := fun j x => if Nat.eqb j i then y i x + h * F (e i) (y i) x else y j x).
    replace (fun x => Sum (S i) (fun j => alpha (S i) j * y j x) + dt * Sum (S i) (fun j => beta (S i) j * F (e j) (y j) x))
      with (fun x => rsum (S i) (fun j => alpha (S i) j * z j x)).
    - apply (convex_comb K HK).
      + intros j Hj. apply Hal; lia.
      + apply Hrow. lia.
      + intros j Hj _. unfold z. destruct (Nat.eqb j i) eqn:E.
        * apply (convex_euler K (y i) (F (e i) (y i)) h dt0 HK); [apply IH; lia|exact Hh|].
          apply HE; [lia|]. apply IH; lia.
        * apply Nat.eqb_neq in E. apply (IH j); lia.
    - fext x. rewrite !Sum_rsum. simpl. unfold z at 2. rewrite Nat.eqb_refl.
      rewrite (rsum_zero i (fun j => beta (S i) j * F (e j) (y j) x)).
      2:{ intros j Hj. rewrite Hb0 by lia. ring. }
      rewrite (rsum_ext i (fun j => alpha (S i) j * z j x) (fun j => alpha (S i) j * y j x)).
      2:{ intros j Hj. unfold z. replace (Nat.eqb j i) with false by (symmetry; apply Nat.eqb_neq; lia). reflexivity. }
      unfold h. field. lra. }
  apply Hall. lia.
Qed.

(** ** The explicit part of a shuosher_step only reads the lower triangle *)
Lemma shuosher_step_ext {D Env} n al be al' be' (F : Env -> (D -> R) -> D -> R) dt e u u' :
  (forall i j, (i <= n)%nat -> (j <= n)%nat -> al i j = al' i j) ->
  (forall i j, (i <= n)%nat -> (j <= n)%nat -> be i j = be' i j) ->
  shuosher_step n al be F dt e u u' -> shuosher_step n al' be' F dt e u u'.
Proof.
  intros Ha Hb (y & H0 & Hy & Hu). exists y. split; [exact H0|]. split; [|exact Hu].
  intros i Hi. rewrite Hy by exact Hi. fext x. rewrite !Sum_rsum. f_equal.
  - apply rsum_ext. intros j Hj. rewrite Ha by lia. reflexivity.
  - f_equal. apply rsum_ext. intros j Hj. rewrite Hb by lia. reflexivity.
Qed.

Lemma so_row_ext {D} n al be al' be' dt (u : D -> R) y k i :
  (forall i j, (i <= n)%nat -> (j <= n)%nat -> al i j = al' i j) ->
  (forall i j, (i <= n)%nat -> (j <= n)%nat -> be i j = be' i j) ->
  (i <= n)%nat ->
  so_row n al be dt u y k i = so_row n al' be' dt u y k i.
Proof.
  intros Ha Hb Hi. unfold so_row. fext x. rewrite Ha by lia. f_equal; [f_equal|f_equal].
  - apply rsum_ext. intros j Hj. rewrite Ha by lia. reflexivity.
  - apply rsum_ext. intros j Hj. rewrite Hb by lia. reflexivity.
Qed.

(** ** Shu-Osher coefficients of the shipped explicit schemes *)

Definition lmat (rows : list (list R)) : mat := fun i j => nth j (nth i rows []) 0.

Lemma lt3 i : (i < 3)%nat -> i = O \/ i = 1%nat \/ i = 2%nat. Proof. lia. Qed.
Lemma le3 i : (i <= 3)%nat -> i = O \/ i = 1%nat \/ i = 2%nat \/ i = 3%nat. Proof. lia. Qed.

Ltac rcompute :=
  cbv -[Rplus Rmult Rinv Ropp Rminus Rdiv IZR]; field.

Lemma explicit_3 a b c :
  (forall i, (i < 3)%nat -> butcher (tab a b c) (S i) i <> 0) -> length b = 3%nat ->
  so_explicit (tab a b c) = Some
   (consistent 3 (fun i j => match i, j with
        | S i', S j' => ident i' j' - matmul 3 (diagm (fun i j => butcher (tab a b c) (S i) j))
                                       (linv (fun i j => butcher (tab a b c) (S i) j) 3) i' j'
        | _, _ => 0 end),
    fun i j => match i with O => 0 | S i' => if Nat.ltb j 3 then diagm (fun i j => butcher (tab a b c) (S i) j) i' j else 0 end).
Proof.
  intros H Hb. unfold so_explicit. cbn [ns tab]. rewrite Hb.
  rewrite (linalg_inv_some _ 3) by exact H. reflexivity.
Qed.

Lemma ssprk33_explicit : explicit_tab SSPRK33Tab.
Proof.
  intros i j Hi Hj Hij. cbn in Hi, Hj. destruct (lt3 i Hi) as [->|[->| ->]]; destruct (lt3 j Hj) as [->|[->| ->]]; try lia; reflexivity.
Qed.
Lemma ssprk33_sub i : (i < 3)%nat -> butcher SSPRK33Tab (S i) i <> 0.
Proof. intros Hi. destruct (lt3 i Hi) as [->|[->| ->]]; cbn; lra. Qed.

Definition ssprk33_alpha := lmat [[1;0;0;0]; [1;0;0;0]; [3/4;1/4;0;0]; [1/3;0;2/3;0]].
Definition ssprk33_beta := lmat [[0;0;0;0]; [1;0;0;0]; [0;1/4;0;0]; [0;0;2/3;0]].

Ltac cases4 i j Hi Hj :=
  destruct (le3 i Hi) as [->|[->|[->| ->]]]; destruct (le3 j Hj) as [->|[->|[->| ->]]].

Lemma ssprk33_form :
  exists al be, so_explicit SSPRK33Tab = Some (al, be) /\
    (forall i j, (i <= 3)%nat -> (j <= 3)%nat -> al i j = ssprk33_alpha i j) /\
    (forall i j, (i <= 3)%nat -> (j <= 3)%nat -> be i j = ssprk33_beta i j).
Proof.
  eexists _, _. split; [apply explicit_3; [exact ssprk33_sub|reflexivity]|].
  split; intros i j Hi Hj; cases4 i j Hi Hj; rcompute.
Qed.
