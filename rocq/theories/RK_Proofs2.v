From Coq Require Import Reals List Arith Bool Lia Lra FunctionalExtensionality.
From Verif Require Import RK_Model RK_Spec RK_Proofs.
Import ListNotations.
Open Scope R_scope.

(** ** Triangular inverse *)

Lemma linv_stable A m m' r j : (r < m)%nat -> (m <= m')%nat -> linv A m' r j = linv A m r j.
Proof.
  intros Hr Hm. induction Hm; [reflexivity|].
  cbn [linv]. assert (Hb : Nat.ltb r m0 = true) by (apply Nat.ltb_lt; lia).
  rewrite Hb. exact IHHm.
Qed.

Lemma linv_row A n i j : (i < n)%nat ->
  linv A n i j = (ident i j - rsum i (fun k => A i k * linv A n k j)) / A i i.
Proof.
  intros Hi. rewrite (linv_stable A (S i) n i j) by lia. cbn [linv].
  rewrite Nat.ltb_irrefl, Nat.eqb_refl. f_equal. f_equal.
  apply rsum_ext. intros k Hk. rewrite (linv_stable A i n k j) by lia. reflexivity.
Qed.

Lemma alln_spec n p : alln n p = true <-> forall i, (i < n)%nat -> p i = true.
Proof.
  induction n; simpl; [split; auto; intros; lia|].
  rewrite andb_true_iff, IHn. split.
  - intros [H1 H2] i Hi. destruct (Nat.eq_dec i n) as [->|]; [exact H2|apply H1; lia].
  - intros H. split; [intros; apply H; lia|apply H; lia].
Qed.

Lemma anyn_spec n p : anyn n p = true <-> exists i, (i < n)%nat /\ p i = true.
Proof.
  induction n; simpl.
  - split; [discriminate|]. intros (i & H & _). lia.
  - rewrite orb_true_iff, IHn. split.
    + intros [(i & H1 & H2)|H]; [exists i; split; [lia|exact H2]|exists n; split; [lia|exact H]].
    + intros (i & H1 & H2). destruct (Nat.eq_dec i n) as [->|]; [right; exact H2|].
      left. exists i. split; [lia|exact H2].
Qed.

Lemma Rnzb_spec x : Rnzb x = true <-> x <> 0.
Proof. unfold Rnzb. destruct (Req_EM_T x 0); split; intros; congruence. Qed.

Section Inverse.
Variable A : mat.
Variable n : nat.
Hypothesis Alow : lower_triangular n A.
Hypothesis Adiag : forall i, (i < n)%nat -> A i i <> 0.

Let X := linv A n.

Lemma tri_cut f i : (i < n)%nat -> rsum n (fun k => A i k * f k) = rsum i (fun k => A i k * f k) + A i i * f i.
Proof.
  intros Hi. rewrite (rsum_cut n (S i)); [reflexivity|lia|].
  intros k Hk. rewrite Alow by lia. ring.
Qed.

Lemma inv_right i j : (i < n)%nat -> matmul n A X i j = ident i j.
Proof.
  intros Hi. unfold matmul. rewrite (tri_cut (fun k => X k j) i Hi).
  unfold X at 2. rewrite (linv_row A n i j Hi). fold X.
  set (r := rsum i (fun k => A i k * X k j)). field. apply Adiag. exact Hi.
Qed.

Lemma tri_zero z : (forall i, (i < n)%nat -> rsum n (fun k => A i k * z k) = 0) ->
  forall i, (i < n)%nat -> z i = 0.
Proof.
  intros H i. induction i as [i IH] using lt_wf_ind. intros Hi.
  specialize (H i Hi). rewrite (tri_cut z i Hi) in H.
  rewrite (rsum_zero i) in H. 2:{ intros k Hk. rewrite IH by lia. ring. }
  rewrite Rplus_0_l in H. apply Rmult_integral in H. destruct H as [H|H]; [|exact H].
  exfalso. exact (Adiag i Hi H).
Qed.

Lemma inv_lower i j : (i < n)%nat -> (i < j)%nat -> X i j = 0.
Proof.
  induction i as [i IH] using lt_wf_ind. intros Hi Hj.
  unfold X. rewrite (linv_row A n i j Hi). fold X.
  rewrite (rsum_zero i). 2:{ intros k Hk. rewrite IH by lia. ring. }
  unfold ident. replace (Nat.eqb i j) with false by (symmetry; apply Nat.eqb_neq; lia).
  field. apply Adiag. exact Hi.
Qed.

Lemma inv_diag i : (i < n)%nat -> X i i = / A i i.
Proof.
  intros Hi. unfold X. rewrite (linv_row A n i i Hi). fold X.
  rewrite (rsum_zero i). 2:{ intros k Hk. rewrite inv_lower by lia. ring. }
  unfold ident. rewrite Nat.eqb_refl. field. apply Adiag. exact Hi.
Qed.

Lemma inv_left i j : (i < n)%nat -> (j < n)%nat -> matmul n X A i j = ident i j.
Proof.
  intros Hi Hj.
  assert (H : forall k, (k < n)%nat -> matmul n X A k j - ident k j = 0).
  { apply (tri_zero (fun k => matmul n X A k j - ident k j)).
    intros r Hr.
    rewrite (rsum_ext n _ (fun k => A r k * matmul n X A k j - A r k * ident k j)) by (intros; ring).
    rewrite rsum_minus.
    rewrite (rsum_single n j (fun k => A r k * ident k j)); [|exact Hj|].
    2:{ intros k Hk Hne. unfold ident. replace (Nat.eqb k j) with false by (symmetry; apply Nat.eqb_neq; lia). ring. }
    unfold ident at 1. rewrite Nat.eqb_refl.
    unfold matmul.
    rewrite (rsum_ext n _ (fun k => rsum n (fun l => A r k * X k l * A l j))).
    2:{ intros k _. rewrite <- rsum_scal. apply rsum_ext. intros; ring. }
    rewrite rsum_swap.
    rewrite (rsum_ext n _ (fun l => matmul n A X r l * A l j)).
    2:{ intros l _. unfold matmul. rewrite <- rsum_scal_r. reflexivity. }
    rewrite (rsum_single n r); [|exact Hr|].
    - rewrite inv_right by exact Hr. unfold ident. rewrite Nat.eqb_refl. ring.
    - intros l Hl Hne. rewrite inv_right by exact Hr. unfold ident.
      replace (Nat.eqb r l) with false by (symmetry; apply Nat.eqb_neq; lia). ring. }
  specialize (H i Hi). lra.
Qed.

Lemma linalg_inv_some : linalg_inv n A = Some X.
Proof.
  unfold linalg_inv, X.
  assert (H : alln n (fun i => Rnzb (A i i)) = true).
  { apply alln_spec. intros i Hi. apply Rnzb_spec. apply Adiag. exact Hi. }
  rewrite H. reflexivity.
Qed.

(** [I - D A^-1] times [A] is [A - D] *)
Lemma al0_mul i j : (i < n)%nat -> (j < n)%nat ->
  rsum n (fun l => (ident i l - matmul n (diagm A) X i l) * A l j) = A i j - diagm A i j.
Proof.
  intros Hi Hj.
  rewrite (rsum_ext n _ (fun l => ident i l * A l j - A i i * (X i l * A l j))).
  2:{ intros l Hl. unfold matmul. rewrite (rsum_single n i); [|exact Hi|].
      - unfold diagm. rewrite Nat.eqb_refl. ring.
      - intros k Hk Hne. unfold diagm.
        replace (Nat.eqb i k) with false by (symmetry; apply Nat.eqb_neq; lia). ring. }
  rewrite rsum_minus, rsum_scal.
  change (rsum n (fun l => X i l * A l j)) with (matmul n X A i j).
  rewrite inv_left by assumption.
  rewrite (rsum_single n i); [|exact Hi|].
  - unfold ident, diagm. rewrite Nat.eqb_refl. destruct (Nat.eqb i j); ring.
  - intros l Hl Hne. unfold ident.
    replace (Nat.eqb i l) with false by (symmetry; apply Nat.eqb_neq; lia). ring.
Qed.

Lemma al0_val i l : (i < n)%nat -> matmul n (diagm A) X i l = A i i * X i l.
Proof.
  intros Hi. unfold matmul. rewrite (rsum_single n i); [|exact Hi|].
  - unfold diagm. rewrite Nat.eqb_refl. reflexivity.
  - intros k Hk Hne. unfold diagm.
    replace (Nat.eqb i k) with false by (symmetry; apply Nat.eqb_neq; lia). ring.
Qed.
End Inverse.

(** ** Explicit schemes *)

Definition explicit_tab (T : tableau) : Prop :=
  forall i j, (i < ns T)%nat -> (j < ns T)%nat -> (i <= j)%nat -> ta T i j = 0.

Lemma explicit_is_implicit T : explicit_tab T -> is_implicit T = false.
Proof.
  intros H. destruct (is_implicit T) eqn:E; [|reflexivity].
  unfold is_implicit in E. apply anyn_spec in E. destruct E as (i & Hi & Hn).
  apply Rnzb_spec in Hn. exfalso. apply Hn. apply H; lia.
Qed.

Section Explicit.
Variable T : tableau.
Hypothesis Hexp : explicit_tab T.
Hypothesis Hsub : forall i, (i < ns T)%nat -> butcher T (S i) i <> 0.

Let n := ns T.
Let aa : mat := fun i j => butcher T (S i) j.

Lemma aa_low : lower_triangular n aa.
Proof.
  intros i j Hi Hj Hlt. unfold aa, butcher. fold n.
  destruct (Nat.ltb (S i) n) eqn:E.
  - apply Nat.ltb_lt in E. apply Hexp; fold n; lia.
  - apply Nat.ltb_ge in E. lia.
Qed.

Lemma butcher_low i j : (i <= n)%nat -> (i <= j)%nat -> (j < n)%nat -> butcher T i j = 0.
Proof.
  intros Hi Hij Hj. unfold butcher. fold n.
  destruct (Nat.ltb i n) eqn:E.
  - apply Nat.ltb_lt in E. apply Hexp; fold n; lia.
  - apply Nat.ltb_ge in E. lia.
Qed.

Lemma so_explicit_spec :
  exists al be, so_explicit T = Some (al, be) /\
    (forall i, rsum (S n) (al i) = 1) /\
    (forall i j, (i < n)%nat -> (i < j <= n)%nat -> al (S i) j = 0) /\
    (forall i j, (i < n)%nat -> (j <= i)%nat ->
       be (S i) j = butcher T (S i) j - rsum (S i) (fun l => al (S i) l * butcher T l j)) /\
    (forall i j, (i < n)%nat -> (j <= n)%nat -> be (S i) j = if Nat.eqb j i then butcher T (S i) i else 0) /\
    (forall j, be O j = 0) /\ (forall j, al O j = if Nat.eqb j 0 then 1 else 0).
Proof.
  unfold so_explicit. fold n. fold aa.
  rewrite (linalg_inv_some aa n) by (intros i Hi; apply Hsub; exact Hi).
  set (X := linv aa n).
  eexists _, _. split; [reflexivity|].
  assert (Hal : forall i j, (i < n)%nat -> (i < j <= n)%nat ->
     consistent n (fun i0 j0 => match i0 with O => 0 | S i' => match j0 with O => 0 | S j' =>
        ident i' j' - matmul n (diagm aa) X i' j' end end) (S i) j = 0).
  { intros i j Hi Hj. destruct j as [|j]; [lia|]. cbn [consistent].
    unfold X. rewrite (al0_val aa n i j Hi). fold X. destruct (Nat.eq_dec j i) as [->|Hne].
    - unfold X. rewrite inv_diag; [|intros; apply Hsub; assumption|exact Hi].
      unfold ident. rewrite Nat.eqb_refl. field. apply Hsub. exact Hi.
    - unfold X. rewrite inv_lower; [|intros; apply Hsub; assumption|exact Hi|lia].
      unfold ident. replace (Nat.eqb i j) with false by (symmetry; apply Nat.eqb_neq; lia). ring. }
  split; [|split; [|split; [|split; [|split]]]].
  - intros i. rewrite rsum_front. cbn [consistent].
    set (r := rsum n _). ring.
  - exact Hal.
  - intros i j Hi Hj.
    assert (Hb : Nat.ltb j n = true) by (apply Nat.ltb_lt; lia). rewrite Hb.
    rewrite rsum_front.
    rewrite (butcher_low 0 j) by lia. rewrite Rmult_0_r, Rplus_0_l.
    rewrite <- (rsum_cut n i (fun l => consistent n _ (S i) (S l) * butcher T (S l) j)); [|lia|].
    2:{ intros l Hl. rewrite Hal by lia. ring. }
    cbn [consistent].
    change (fun l => (ident i l - matmul n (diagm aa) X i l) * butcher T (S l) j)
      with (fun l => (ident i l - matmul n (diagm aa) X i l) * aa l j).
    unfold X. rewrite al0_mul; [unfold aa; ring|exact aa_low|intros; apply Hsub; assumption|exact Hi|lia].
  - intros i j Hi Hj. unfold diagm, aa. destruct (Nat.eqb j i) eqn:E.
    + apply Nat.eqb_eq in E. subst j. assert (Hb : Nat.ltb i n = true) by (apply Nat.ltb_lt; lia).
      rewrite Hb, Nat.eqb_refl. reflexivity.
    + rewrite Nat.eqb_sym, E. destruct (Nat.ltb j n); reflexivity.
  - reflexivity.
  - intros j. destruct j; cbn [consistent Nat.eqb]; [|reflexivity].
    rewrite (rsum_zero n) by reflexivity. ring.
Qed.

Lemma so_explicit_step {D Env} :
  exists al be, so_explicit T = Some (al, be) /\
    (forall i, (i <= n)%nat -> Sum (S n) (al i) = 1) /\
    forall (F : Env -> (D -> R) -> D -> R) dt e u u',
      shuosher_step n al be F dt e u u' <-> explicit_step n (ta T) (tb T) F dt e u u'.
Proof.
  destruct so_explicit_spec as (al & be & Hs & Hr & Hz & Hb & _).
  exists al, be. split; [exact Hs|]. split; [intros i _; rewrite Sum_rsum; apply Hr|].
  intros F dt e u u'. apply shuosher_explicit.
  - intros i Hi. rewrite <- (rsum_cut (S n) (S i)); [apply Hr|fold n; fold n in Hi; lia|].
    intros j Hj. apply Hz; fold n in Hi; lia.
  - exact Hb.
  - exact butcher_low.
Qed.
End Explicit.

(** ** Rounding *)

Definition no_tiny (n : nat) (m : mat) : Prop :=
  forall i j, (i <= n)%nat -> (j <= n)%nat -> m i j = 0 \/ / 10 ^ 13 <= Rabs (m i j).

Lemma round13_id x : x = 0 \/ / 10 ^ 13 <= Rabs x -> round13 x = x.
Proof.
  unfold round13, tiny. intros [->|H].
  - destruct (Rlt_dec _ _); reflexivity.
  - destruct (Rlt_dec _ _); [lra|reflexivity].
Qed.

(** ** DIRK schemes *)

(** Shu-Osher form of a DIRK scheme: column 0 multiplies the start value,
    column j+1 the j-th stage; row n is the update. *)
Definition so_row {D} (n : nat) (alpha beta : mat) (dt : R) (u : D -> R)
    (y k : nat -> D -> R) (i : nat) : D -> R :=
  fun x => alpha i O * u x + rsum n (fun j => alpha i (S j) * y j x)
           + dt * rsum n (fun j => beta i (S j) * k j x).

Section Implicit.
Variable T : tableau.
Hypothesis Hlow : lower_triangular (ns T) (ta T).
Hypothesis Hdiag : forall i, (i < ns T)%nat -> ta T i i <> 0.

Let n := ns T.
Let A := ta T.
Let X := linv A n.

Lemma dirk_is_implicit : (0 < ns T)%nat -> is_implicit T = true.
Proof.
  intros Hn. unfold is_implicit. apply anyn_spec. exists O. split; [exact Hn|].
  apply Rnzb_spec. apply Hdiag. exact Hn.
Qed.

Lemma diag_low : lower_triangular n (diagm A).
Proof. intros i j _ _ H. unfold diagm. replace (Nat.eqb i j) with false by (symmetry; apply Nat.eqb_neq; lia). reflexivity. Qed.

Lemma diag_diag i : (i < n)%nat -> diagm A i i <> 0.
Proof. intros Hi. unfold diagm. rewrite Nat.eqb_refl. apply Hdiag. exact Hi. Qed.

Definition be1 (j : nat) : R := if Nat.eqb (S j) n then tb T j else 0.

Lemma so_implicit_spec :
  exists al be, so_implicit T = Some (al, be) /\
    (forall i, (i <= n)%nat -> rsum (S n) (al i) = 1) /\
    (forall i j, (i < n)%nat -> (j < n)%nat -> al i (S j) = ident i j - A i i * X i j) /\
    (forall i j, (i < n)%nat -> (j < n)%nat -> be i (S j) = diagm A i j) /\
    (forall j, (j < n)%nat -> be n (S j) = be1 j) /\
    (forall i j, (i < n)%nat -> (j < n)%nat -> rsum n (fun l => al i (S l) * A l j) = A i j - be i (S j)) /\
    (forall j, (j < n)%nat -> rsum n (fun l => al n (S l) * A l j) = tb T j - be n (S j)).
Proof.
  unfold so_implicit. fold n. fold A.
  rewrite (linalg_inv_some A n) by exact Hdiag.
  rewrite (linalg_inv_some (diagm A) n) by exact diag_diag.
  fold X. set (Y := linv (diagm A) n). fold be1.
  eexists _, _. split; [reflexivity|].
  assert (HW : forall k j, (k < n)%nat -> (j < n)%nat ->
    matmul n Y (fun i j => ident i j - (ident i j - matmul n (diagm A) X i j)) k j = X k j).
  { intros k j Hk Hj. unfold matmul at 1.
    rewrite (rsum_ext n _ (fun l => rsum n (fun m => Y k l * diagm A l m * X m j))).
    2:{ intros l Hl. unfold matmul.
        rewrite (rsum_ext n (fun m => Y k l * diagm A l m * X m j) (fun m => Y k l * (diagm A l m * X m j))) by (intros; ring).
        rewrite rsum_scal. ring. }
    rewrite rsum_swap.
    rewrite (rsum_ext n _ (fun m => matmul n Y (diagm A) k m * X m j)).
    2:{ intros m Hm. unfold matmul. rewrite rsum_scal_r. reflexivity. }
    rewrite (rsum_single n k); [|exact Hk|].
    - unfold Y. rewrite inv_left; [|exact diag_low|exact diag_diag|exact Hk|exact Hk].
      unfold ident. rewrite Nat.eqb_refl. ring.
    - intros m Hm Hne. unfold Y. rewrite inv_left; [|exact diag_low|exact diag_diag|exact Hk|exact Hm].
      unfold ident. replace (Nat.eqb k m) with false by (symmetry; apply Nat.eqb_neq; lia). ring. }
  split; [|split; [|split; [|split; [|split]]]].
  - intros i Hi. rewrite rsum_front. cbn [consistent]. set (r := rsum n _). ring.
  - intros i j Hi Hj. cbn [consistent].
    assert (Hb : Nat.ltb i n = true) by (apply Nat.ltb_lt; lia). rewrite Hb.
    unfold X. rewrite (al0_val A n i j Hi). reflexivity.
  - intros i j Hi Hj. assert (Hb : Nat.ltb i n = true) by (apply Nat.ltb_lt; lia). rewrite Hb. reflexivity.
  - intros j Hj. rewrite Nat.ltb_irrefl. reflexivity.
  - intros i j Hi Hj. cbn [consistent].
    assert (Hb : Nat.ltb i n = true) by (apply Nat.ltb_lt; lia). rewrite Hb.
    unfold X. apply al0_mul; assumption.
  - intros j Hj. cbn [consistent]. rewrite Nat.ltb_irrefl.
    rewrite (rsum_ext n _ (fun l => rsum n (fun k => (tb T k - be1 k) * X k l * A l j))).
    2:{ intros l Hl. rewrite <- rsum_scal_r. apply rsum_ext. intros k Hk. rewrite HW by assumption. reflexivity. }
    rewrite rsum_swap.
    rewrite (rsum_ext n _ (fun k => (tb T k - be1 k) * matmul n X A k j)).
    2:{ intros k Hk. unfold matmul. rewrite <- rsum_scal. apply rsum_ext. intros; ring. }
    rewrite (rsum_single n j); [|exact Hj|].
    + unfold X. rewrite inv_left by assumption. unfold ident. rewrite Nat.eqb_refl. unfold be1; ring.
    + intros k Hk Hne. unfold X. rewrite inv_left by assumption. unfold ident.
      replace (Nat.eqb k j) with false by (symmetry; apply Nat.eqb_neq; lia). ring.
Qed.

Lemma so_row_affine {D} (al be : mat) dt (u : D -> R) (k z : nat -> D -> R) i (B : nat -> R) x :
  rsum (S n) (al i) = 1 ->
  (forall j, (j < n)%nat -> rsum n (fun l => al i (S l) * A l j) = B j - be i (S j)) ->
  so_row n al be dt u (fun j x => u x + dt * rsum n (fun l => A j l * k l x) + z j x) k i x
  = u x + dt * rsum n (fun l => B l * k l x) + rsum n (fun j => al i (S j) * z j x).
Proof.
  intros Hr HB. unfold so_row.
  rewrite rsum_front in Hr.
  rewrite (rsum_ext n (fun j => al i (S j) * _)
    (fun j => (al i (S j) * u x + dt * (al i (S j) * rsum n (fun l => A j l * k l x))) + al i (S j) * z j x))
    by (intros; ring).
  rewrite !rsum_plus, rsum_scal, rsum_scal_r.
  assert (Hsw : rsum n (fun j => al i (S j) * rsum n (fun l => A j l * k l x))
     = rsum n (fun l => (B l - be i (S l)) * k l x)).
  { rewrite (rsum_ext n _ (fun j => rsum n (fun l => al i (S j) * A j l * k l x))).
    2:{ intros j _. rewrite <- rsum_scal. apply rsum_ext. intros; ring. }
    rewrite rsum_swap. apply rsum_ext. intros l Hl. rewrite rsum_scal_r, HB by exact Hl. reflexivity. }
  rewrite Hsw.
  rewrite (rsum_ext n (fun l => (B l - be i (S l)) * k l x) (fun l => B l * k l x - be i (S l) * k l x)) by (intros; ring).
  rewrite rsum_minus.
  set (r := rsum n (fun i0 => al i (S i0))) in *. replace (al i O) with (1 - r) by lra. ring.
Qed.

Lemma rsum_full i f : (i < n)%nat -> rsum n (fun l => A i l * f l) = rsum (S i) (fun l => A i l * f l).
Proof.
  intros Hi. apply rsum_cut; [lia|]. intros j Hj. unfold A. rewrite Hlow by (fold n; lia). ring.
Qed.

Lemma so_implicit_step {D Env} :
  exists al be, so_implicit T = Some (al, be) /\
    (forall i, (i <= n)%nat -> Sum (S n) (al i) = 1) /\
    forall (F : Env -> (D -> R) -> D -> R) dt (e : nat -> Env) u u',
      (exists y, (forall i, (i < n)%nat -> y i = so_row n al be dt u y (fun j => F (e j) (y j)) i) /\
                 u' = so_row n al be dt u y (fun j => F (e j) (y j)) n)
      <-> implicit_step n (ta T) (tb T) F dt e u u'.
Proof.
  destruct so_implicit_spec as (al & be & Hs & Hr & Hal & Hbe & Hbn & Hrow & Hlast).
  exists al, be. split; [exact Hs|]. split; [intros i Hi; rewrite Sum_rsum; apply Hr; exact Hi|].
  intros F dt e u u'. split.
  - intros (y & Hy & Hu).
    set (k := fun j => F (e j) (y j)) in *.
    set (z := fun j x => y j x - u x - dt * rsum n (fun l => A j l * k l x)).
    assert (Hyz : y = fun j x => u x + dt * rsum n (fun l => A j l * k l x) + z j x).
    { apply functional_extensionality; intros j. apply functional_extensionality; intros x. unfold z. ring. }
    assert (Hz : forall x i, (i < n)%nat -> z i x = 0).
    { intros x. apply (tri_zero X n).
      - intros i j Hi Hj Hij. unfold X. apply inv_lower; assumption.
      - intros i Hi. unfold X. rewrite inv_diag by assumption. apply Rinv_neq_0_compat. apply Hdiag. exact Hi.
      - intros i Hi. pose proof (f_equal (fun f => f x) (Hy i Hi)) as E. cbn beta in E.
        rewrite Hyz in E.
        rewrite (so_row_affine al be dt u k z i (fun l => A i l) x) in E.
        2:{ apply Hr. lia. }
        2:{ intros j Hj. apply Hrow; assumption. }
        rewrite (rsum_ext n (fun j => al i (S j) * z j x) (fun j => ident i j * z j x - A i i * (X i j * z j x))) in E.
        2:{ intros j Hj. rewrite Hal by assumption. ring. }
        rewrite rsum_minus, rsum_scal in E.
        rewrite (rsum_single n i (fun j => ident i j * z j x)) in E; [|exact Hi|].
        2:{ intros j Hj Hne. unfold ident. replace (Nat.eqb i j) with false by (symmetry; apply Nat.eqb_neq; lia). ring. }
        unfold ident in E. rewrite Nat.eqb_refl in E.
        assert (E2 : A i i * rsum n (fun j => X i j * z j x) = 0) by lra.
        apply Rmult_integral in E2. destruct E2 as [E2|E2]; [|exact E2].
        exfalso. exact (Hdiag i Hi E2). }
    exists k. split.
    + intros i Hi. unfold k at 1. f_equal. rewrite along_rsum. rewrite Hyz.
      apply functional_extensionality; intros x. rewrite Hz by exact Hi.
      rewrite rsum_full by exact Hi. fold A. ring.
    + rewrite Hu, along_rsum. apply functional_extensionality; intros x. rewrite Hyz.
      rewrite (so_row_affine al be dt u k z n (tb T) x) by (try (apply Hr; lia); exact Hlast).
      rewrite (rsum_zero n (fun j => al n (S j) * z j x)); [ring|].
      intros j Hj. rewrite Hz by exact Hj. ring.
  - intros (k & Hk & Hu).
    set (z := fun (j : nat) (x : D) => 0).
    exists (fun j x => u x + dt * rsum n (fun l => A j l * k l x) + z j x).
    assert (Hky : forall j, (j < n)%nat -> F (e j) (fun x => u x + dt * rsum n (fun l => A j l * k l x) + z j x) = k j).
    { intros j Hj. rewrite (Hk j Hj). f_equal. rewrite along_rsum. apply functional_extensionality; intros x.
      unfold z. rewrite rsum_full by exact Hj. fold A. ring. }
    assert (Hext : forall i, so_row n al be dt u (fun j x => u x + dt * rsum n (fun l => A j l * k l x) + z j x)
        (fun j => F (e j) (fun x => u x + dt * rsum n (fun l => A j l * k l x) + z j x)) i
       = so_row n al be dt u (fun j x => u x + dt * rsum n (fun l => A j l * k l x) + z j x) k i).
    { intros i. unfold so_row. apply functional_extensionality; intros x. f_equal. f_equal.
      apply rsum_ext. intros j Hj. rewrite Hky by exact Hj. reflexivity. }
    split.
    + intros i Hi. rewrite Hext. apply functional_extensionality; intros x.
      rewrite (so_row_affine al be dt u k z i (fun l => A i l) x).
      * rewrite (rsum_zero n (fun j => al i (S j) * z j x)); [reflexivity|]. intros; unfold z; ring.
      * apply Hr. lia.
      * intros j Hj. apply Hrow; assumption.
    + rewrite Hext, Hu, along_rsum. apply functional_extensionality; intros x.
      rewrite (so_row_affine al be dt u k z n (tb T) x) by (try (apply Hr; lia); exact Hlast).
      rewrite (rsum_zero n (fun j => al n (S j) * z j x)); [ring|]. intros; unfold z; ring.
Qed.
End Implicit.
