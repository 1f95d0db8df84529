(** C68: streamline upwind test functions and the projection of a restriction
    to a subdomain. *)
From Coq Require Import Reals List Bool Lra Lia Psatz.
From Verif Require Import Geometry_Model.
Import ListNotations.
Open Scope R_scope.

(* ------------------------------------------------------------------ *)
(** * Streamline upwinding *)

(** Constants as test functions are unchanged, so stabilisation does not
    affect the total tracer mass; so are all test functions when the velocity
    scale is zero. *)
Theorem C68_supg_conservation unorm D cs u phi :
  supg_test unorm D cs u (0, 0) phi = phi /\
  forall gphi, unorm <= 0 -> supg_test unorm D cs u gphi phi = phi.
Proof.
  unfold supg_test, supg_inc, Rltb. cbn [fst snd]. split.
  - destruct (Rlt_dec 0 unorm); ring.
  - intros gphi H. destruct (Rlt_dec 0 unorm); [lra|ring].
Qed.

(** The modified test function depends linearly on the test function. *)
Theorem C68_supg_linear unorm D cs u g1 g2 p1 p2 k :
  supg_test unorm D cs u (fst g1 + k * fst g2, snd g1 + k * snd g2) (p1 + k * p2)
  = supg_test unorm D cs u g1 p1 + k * supg_test unorm D cs u g2 p2.
Proof.
  unfold supg_test, supg_inc, Rltb. cbn [fst snd]. destruct (Rlt_dec 0 unorm); ring.
Qed.

(** The parameter is not negative, and at most the time the flow needs for
    half the cell. *)
Theorem C68_supg_bounds unorm D cs : 0 < unorm -> 0 <= cs ->
  0 <= supg_tau unorm D cs <= cs / (2 * unorm).
Proof.
  intros U C. unfold supg_tau, min_value, Rltb.
  assert (E : 0.5 * cs / unorm = cs / (2 * unorm)) by lra || (replace 0.5 with (/ 2) by lra; field; lra).
  rewrite E.
  assert (P : 0 <= cs / (2 * unorm)).
  { apply Rmult_le_pos; [exact C|]. apply Rlt_le, Rinv_0_lt_compat. lra. }
  destruct (Rlt_dec 0 D) as [H|H]; [|lra].
  assert (Q : 0 <= 0.5 * unorm * cs / D / 3).
  { apply Rmult_le_pos; [|lra]. apply Rmult_le_pos.
    - apply Rmult_le_pos; [|exact C]. lra.
    - apply Rlt_le, Rinv_0_lt_compat, H. }
  destruct (Rlt_dec _ _); lra.
Qed.

(** The parameter is a time, but it is compared with the dimensionless cell
    Peclet number: with another unit of time ([k] old units) the same flow is
    stabilised differently. *)
Theorem C68_supg_units_refuted :
  exists unorm D cs k, 0 < unorm /\ 0 < D /\ 0 < cs /\ 0 < k /\
    supg_tau (k * unorm) (k * D) cs <> supg_tau unorm D cs / k.
Proof.
  exists 1, 1, 1, 10. repeat (split; [lra|]).
  unfold supg_tau, min_value, Rltb.
  destruct (Rlt_dec 0 (10 * 1)); [|lra]. destruct (Rlt_dec 0 1); [|lra].
  destruct (Rlt_dec (0.5 * 1 / (10 * 1)) _); destruct (Rlt_dec (0.5 * 1 / 1) _); lra.
Qed.

(* ------------------------------------------------------------------ *)
(** * Projection of a restriction *)

Section P.
Context {V : Type}.
Variable pts : list V.
Variable w : V -> R.
Variable inside : V -> bool.
Variable S : (V -> R) -> Prop.
Notation Int := (quad pts w).
Notation IntSub := (quad_sub pts w inside).

Lemma quad_ext f g : (forall x, In x pts -> f x = g x) -> Int f = Int g.
Proof.
  unfold quad. induction pts as [|p l IH]; intros H; [reflexivity|]. cbn.
  rewrite H by now left. f_equal. apply IH. intros x Hx. apply H. now right.
Qed.

Lemma quad_sub_ext f g : (forall x, In x pts -> f x = g x) -> IntSub f = IntSub g.
Proof.
  unfold quad_sub. induction pts as [|p l IH]; intros H; [reflexivity|]. cbn.
  rewrite H by now left. f_equal. apply IH. intros x Hx. apply H. now right.
Qed.

Lemma quad_nonneg f : (forall x, In x pts -> 0 <= w x * f x) -> 0 <= Int f.
Proof.
  unfold quad. induction pts as [|p l IH]; intros H; [cbn; lra|]. cbn.
  apply Rplus_le_le_0_compat; [apply H; now left|]. apply IH. intros x Hx. apply H. now right.
Qed.

Lemma quad_minus f g : Int f - Int g = Int (fun x => f x - g x).
Proof. unfold quad. induction pts as [|p l IH]; cbn; [lra|]. rewrite <- IH. ring. Qed.

(** The integral of the result is that of the restricted function. *)
Theorem C68_subdomain_integral v q :
  S (fun _ => 1) -> projected pts w inside S v q -> Int q = IntSub v.
Proof.
  intros H1 [_ P]. specialize (P _ H1).
  rewrite (quad_ext _ q) in P by (intros; ring).
  rewrite (quad_sub_ext _ v) in P by (intros; ring). exact P.
Qed.

(** The projection does not increase the norm. *)
Theorem C68_subdomain_norm v q :
  (forall x, In x pts -> 0 <= w x) -> projected pts w inside S v q ->
  Int (fun x => q x * q x) <= IntSub (fun x => v x * v x).
Proof.
  intros W [Sq P]. specialize (P _ Sq).
  assert (X : 2 * IntSub (fun x => q x * v x)
              <= Int (fun x => q x * q x) + IntSub (fun x => v x * v x)).
  { clear P. unfold quad, quad_sub. induction pts as [|p l IH]; cbn; [lra|].
    assert (IH' := IH (fun x Hx => W x (or_intror Hx))).
    assert (Wp := W p (or_introl eq_refl)).
    assert (A : 0 <= w p * ((q p - v p) * (q p - v p))) by (apply Rmult_le_pos; [exact Wp|apply Rle_0_sqr]).
    assert (B : 0 <= w p * (q p * q p)) by (apply Rmult_le_pos; [exact Wp|apply Rle_0_sqr]).
    destruct (inside p); lra. }
  lra.
Qed.

(** For a discontinuous space, one that contains the restrictions of its
    functions to the rest of the mesh, the result vanishes there. *)
Theorem C68_subdomain_outside v q :
  (forall x, In x pts -> 0 < w x) ->
  (forall p, S p -> S (fun x => if inside x then 0 else p x)) ->
  projected pts w inside S v q ->
  forall x, In x pts -> inside x = false -> q x = 0.
Proof.
  intros W C [Sq P] x Hx Ox. specialize (P _ (C _ Sq)).
  assert (Z : IntSub (fun x => (if inside x then 0 else q x) * v x) = 0).
  { clear. unfold quad_sub. induction pts as [|p l IH]; cbn; [reflexivity|]. rewrite IH.
    destruct (inside p); ring. }
  cbv beta in P. rewrite Z in P. clear Z C Sq.
  unfold quad in P. induction pts as [|p l IH]; [destruct Hx|]. cbn in P.
  assert (A : 0 <= w p * ((if inside p then 0 else q p) * q p)).
  { apply Rmult_le_pos; [apply Rlt_le, W; now left|]. destruct (inside p); [lra|apply Rle_0_sqr]. }
  assert (B : 0 <= fold_right (fun x s => w x * ((if inside x then 0 else q x) * q x) + s) 0 l).
  { assert (Wl : forall y, In y l -> 0 < w y) by (intros; apply W; now right).
    clear - Wl. induction l as [|y l IH]; cbn; [lra|].
    apply Rplus_le_le_0_compat.
    - apply Rmult_le_pos; [apply Rlt_le, Wl; now left|]. destruct (inside y); [lra|apply Rle_0_sqr].
    - apply IH. intros; apply Wl; now right. }
  destruct Hx as [->|Hx].
  - rewrite Ox in A, P. assert (Wx := W x (or_introl eq_refl)).
    assert (E : w x * (q x * q x) = 0) by lra.
    apply Rmult_integral in E as [E|E]; [lra|]. apply Rmult_integral in E as [E|E]; exact E.
  - apply IH; [intros; apply W; now right|lra|exact Hx].
Qed.

(** The result is unique (at the points where it is known). *)
Theorem C68_subdomain_unique v q1 q2 :
  (forall x, In x pts -> 0 < w x) ->
  (forall a b, S a -> S b -> S (fun x => a x - b x)) ->
  projected pts w inside S v q1 -> projected pts w inside S v q2 ->
  forall x, In x pts -> q1 x = q2 x.
Proof.
  intros W C [S1 P1] [S2 P2].
  assert (D := C _ _ S1 S2). specialize (P1 _ D). specialize (P2 _ D).
  assert (Z : Int (fun x => (q1 x - q2 x) * (q1 x - q2 x)) = 0).
  { transitivity (Int (fun x => (q1 x - q2 x) * q1 x) - Int (fun x => (q1 x - q2 x) * q2 x)).
    - rewrite quad_minus. apply quad_ext. intros; ring.
    - rewrite P1, P2. ring. }
  clear - W Z. unfold quad in Z. induction pts as [|p l IH]; intros x Hx; [destruct Hx|].
  cbn in Z.
  assert (A : 0 <= w p * ((q1 p - q2 p) * (q1 p - q2 p))).
  { apply Rmult_le_pos; [apply Rlt_le, W; now left|apply Rle_0_sqr]. }
  assert (B : 0 <= fold_right (fun x s => w x * ((q1 x - q2 x) * (q1 x - q2 x)) + s) 0 l).
  { assert (Wl : forall y, In y l -> 0 < w y) by (intros; apply W; now right).
    clear - Wl. induction l as [|y l IH]; cbn; [lra|].
    apply Rplus_le_le_0_compat.
    - apply Rmult_le_pos; [apply Rlt_le, Wl; now left|apply Rle_0_sqr].
    - apply IH. intros; apply Wl; now right. }
  destruct Hx as [->|Hx].
  - assert (Wx := W x (or_introl eq_refl)).
    assert (E : w x * ((q1 x - q2 x) * (q1 x - q2 x)) = 0) by lra.
    apply Rmult_integral in E as [E|E]; [lra|]. apply Rmult_integral in E as [E|E]; lra.
  - apply IH; [intros; apply W; now right|lra|exact Hx].
Qed.

End P.

(** For a continuous space it does not vanish: two cells [0,1] and [1,2] with
    two quadrature points each and continuous linear functions. The density 1
    of a farm in the first cell becomes negative in the second, and exceeds 1
    in the first. *)
Definition hat (a b c : R) (i : nat) : R :=
  match i with
  | O => 3/4 * a + 1/4 * b | 1%nat => 1/4 * a + 3/4 * b
  | 2%nat => 3/4 * b + 1/4 * c | _ => 1/4 * b + 3/4 * c
  end.
Definition p1_space (f : nat -> R) : Prop := exists a b c, forall i, f i = hat a b c i.
Definition first_cell (i : nat) : bool := Nat.ltb i 2.

Theorem C68_subdomain_positive_refuted :
  exists q, projected [0; 1; 2; 3]%nat (fun _ => 1/2) first_cell p1_space (fun _ => 1) q /\
    q 3%nat < 0 /\ 1 < q 0%nat.
Proof.
  exists (hat (13/10) (1/2) (-3/10)). split; [split|].
  - now exists (13/10), (1/2), (-3/10).
  - intros p (a & b & c & E). unfold quad, quad_sub. cbn [fold_right first_cell Nat.ltb Nat.leb].
    rewrite !E. cbn [hat]. field.
  - cbn [hat]. lra.
Qed.

(** The hypotheses of the theorems on discontinuous spaces are met by the space
    of functions that are constant in each cell. *)
Definition p0_space (f : nat -> R) : Prop :=
  exists a b, forall i, f i = if first_cell i then a else b.

Example C68_subdomain_case :
  exists q, projected [0; 1; 2; 3]%nat (fun _ => 1/2) first_cell p0_space (fun _ => 3) q /\
    p0_space (fun _ => 1) /\
    (forall p, p0_space p -> p0_space (fun x => if first_cell x then 0 else p x)) /\
    (forall a b, p0_space a -> p0_space b -> p0_space (fun x => a x - b x)) /\
    q 0%nat = 3 /\ q 2%nat = 0.
Proof.
  exists (fun i => if first_cell i then 3 else 0). split; [split|].
  - now exists 3, 0.
  - intros p (a & b & E). unfold quad, quad_sub. cbn [fold_right].
    rewrite !E. unfold first_cell. cbn [Nat.ltb Nat.leb]. field.
  - split; [|split; [|split; [|split; reflexivity]]].
    + exists 1, 1. intros i. now destruct (first_cell i).
    + intros p (a & b & E). exists 0, b. intros i. rewrite E. now destruct (first_cell i).
    + intros f g (a & b & E) (c & d & G). exists (a - c), (b - d). intros i.
      rewrite E, G. now destruct (first_cell i).
Qed.

Print Assumptions C68_subdomain_outside.
