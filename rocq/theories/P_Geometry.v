(** C68: mesh geometry: angles, widths, cell sizes, beta plane. *)
From Coq Require Import Reals List Bool Lra Lia Psatz.
From Verif Require Import Geometry_Model.
Import ListNotations.
Open Scope R_scope.

(** * Specification *)

Definition vec (P Q : pt) : pt := (fst Q - fst P, snd Q - snd P).
Definition dotp (a b : pt) : R := fst a * fst b + snd a * snd b.
Definition dist (P Q : pt) : R := sqrt (dotp (vec P Q) (vec P Q)).

(** The interior angle at [P] of the triangle P Q S. *)
Definition angle (P Q S : pt) : R := acos (dotp (vec P Q) (vec P S) / (dist P Q * dist P S)).

(** A triangle with positive area. *)
Definition area2 (P Q S : pt) : R :=
  fst (vec P Q) * snd (vec P S) - snd (vec P Q) * fst (vec P S).

(** [s] numbers the three edges in some order. *)
Definition numbering (s : nat -> nat) : Prop :=
  (forall i, (i < 3)%nat -> (s i < 3)%nat) /\
  (forall i j, (i < 3)%nat -> (j < 3)%nat -> s i = s j -> i = j).

(* ------------------------------------------------------------------ *)

Lemma dotp_pos a : 0 <= dotp a a.
Proof. unfold dotp. nra. Qed.

Lemma dist_sq P Q : dist P Q * dist P Q = dotp (vec P Q) (vec P Q).
Proof. unfold dist. apply sqrt_sqrt, dotp_pos. Qed.

Lemma dist_nonneg P Q : 0 <= dist P Q.
Proof. apply sqrt_pos. Qed.

Lemma dist_sym P Q : dist P Q = dist Q P.
Proof. unfold dist. f_equal. unfold dotp, vec. cbn. ring. Qed.

Lemma dist_pos P Q S : area2 P Q S <> 0 -> 0 < dist P Q.
Proof.
  intros A. unfold dist. apply sqrt_lt_R0.
  destruct (Rle_lt_or_eq_dec _ _ (dotp_pos (vec P Q))) as [H|H]; [exact H|].
  exfalso. apply A. symmetry in H. unfold dotp in H.
  assert (X : fst (vec P Q) = 0) by nra. assert (Y : snd (vec P Q) = 0) by nra.
  unfold area2. rewrite X, Y. ring.
Qed.

Lemma area_rot P Q S : area2 Q S P = area2 P Q S.
Proof. unfold area2, vec. cbn. ring. Qed.
Lemma area_swap P Q S : area2 P S Q = - area2 P Q S.
Proof. unfold area2, vec. cbn. ring. Qed.

(** The cosine rule. *)
Definition cosl (x y z : R) : R := (y * y + z * z - x * x) / (2 * y * z).

Lemma cosine_rule P Q S : 0 < dist P Q -> 0 < dist P S ->
  dotp (vec P Q) (vec P S) / (dist P Q * dist P S) = cosl (dist Q S) (dist P Q) (dist P S).
Proof.
  intros A B. unfold cosl. rewrite !dist_sq.
  replace (dotp (vec P Q) (vec P Q) + dotp (vec P S) (vec P S) - dotp (vec Q S) (vec Q S))
    with (2 * dotp (vec P Q) (vec P S)) by (unfold dotp, vec; cbn; ring).
  field. lra.
Qed.

(** Strict triangle inequality, from the area (Lagrange's identity). *)
Lemma cos_strict P Q S : area2 P Q S <> 0 ->
  -1 < cosl (dist Q S) (dist P Q) (dist P S) < 1.
Proof.
  intros A.
  assert (P1 : 0 < dist P Q) by (eapply dist_pos; eassumption).
  assert (P2 : 0 < dist P S).
  { apply (dist_pos P S Q). rewrite area_swap. intros E. apply A. lra. }
  rewrite <- cosine_rule by assumption.
  set (d := dotp (vec P Q) (vec P S)). set (p := dist P Q) in *. set (q := dist P S) in *.
  assert (L : d * d < (p * q) * (p * q)).
  { replace ((p * q) * (p * q)) with ((p * p) * (q * q)) by ring.
    unfold p, q. rewrite !dist_sq. fold p q.
    assert (0 < area2 P Q S * area2 P Q S) by nra.
    unfold d, dotp. unfold area2 in H. nra. }
  assert (PQ : 0 < p * q) by nra.
  assert (E : d / (p * q) * (p * q) = d) by (field; lra).
  assert (L1 : - (p * q) < d) by nra. assert (L2 : d < p * q) by nra.
  split; apply Rmult_lt_reg_r with (p * q); try exact PQ; rewrite E; lra.
Qed.

Lemma acos_le x y : -1 <= x <= 1 -> -1 <= y <= 1 -> x <= y -> acos y <= acos x.
Proof.
  intros X Y L. destruct (Rle_or_lt (acos y) (acos x)) as [H|H]; [exact H|exfalso].
  assert (Bx := acos_bound x). assert (By := acos_bound y).
  assert (C : cos (acos y) < cos (acos x)) by (apply cos_decreasing_1; lra).
  rewrite !cos_acos in C by lra. lra.
Qed.

(** The angle opposite the shorter edge is the smaller one. *)
Lemma cosl_order a b c : 0 < a -> 0 < b -> 0 < c -> c < a + b -> a <= b ->
  cosl b c a <= cosl a b c.
Proof.
  intros A B C T L. unfold cosl.
  assert (X : (b * b + c * c - a * a) / (2 * b * c) - (c * c + a * a - b * b) / (2 * c * a)
          = (b - a) * ((a + b) * (a + b) - c * c) / (2 * a * b * c)).
  { field. lra. }
  assert (Y : 0 <= (b - a) * ((a + b) * (a + b) - c * c) / (2 * a * b * c)).
  { apply Rmult_le_pos.
    - apply Rmult_le_pos; [lra|]. nra.
    - apply Rlt_le, Rinv_0_lt_compat. repeat apply Rmult_lt_0_compat; lra. }
  lra.
Qed.

Lemma cosl_sym x y z : cosl x y z = cosl x z y.
Proof. unfold cosl. f_equal; ring. Qed.

Lemma tri_ineq a b c : 0 < a -> 0 < b -> 0 < c -> -1 < cosl c a b -> c < a + b.
Proof.
  intros A B C H. unfold cosl in H.
  assert (P : 0 < 2 * a * b) by (repeat apply Rmult_lt_0_compat; lra).
  assert (E : (a * a + b * b - c * c) / (2 * a * b) * (2 * a * b) = a * a + b * b - c * c)
    by (field; lra).
  assert (X : - (2 * a * b) < a * a + b * b - c * c) by nra. nra.
Qed.

Record triangle_edges (a b c : R) : Prop :=
  { te_a : 0 < a; te_b : 0 < b; te_c : 0 < c;
    te_1 : -1 < cosl a b c < 1; te_2 : -1 < cosl b c a < 1; te_3 : -1 < cosl c a b < 1 }.

Lemma te_rot a b c : triangle_edges a b c -> triangle_edges b c a.
Proof. intros []. constructor; assumption. Qed.
Lemma te_swap a b c : triangle_edges a b c -> triangle_edges b a c.
Proof.
  intros []. constructor; try assumption; rewrite cosl_sym; assumption.
Qed.

Definition min3 (x y z : R) : R := Rmin x (Rmin y z).

Lemma min3_first a b c : triangle_edges a b c -> a <= b -> a <= c ->
  min3 (acos (cosl a b c)) (acos (cosl b c a)) (acos (cosl c a b)) = acos (cosl a b c).
Proof.
  intros T H1 H2. destruct T.
  assert (X : acos (cosl a b c) <= acos (cosl b c a)).
  { apply acos_le; [lra|lra|]. apply cosl_order; try assumption.
    apply tri_ineq; try assumption. lra. }
  assert (Y : acos (cosl a b c) <= acos (cosl c a b)).
  { apply acos_le; [lra|lra|]. rewrite (cosl_sym c a b), (cosl_sym a b c).
    apply cosl_order; try assumption.
    apply tri_ineq; try assumption. rewrite cosl_sym. lra. }
  unfold min3. apply Rmin_left. apply Rmin_glb; assumption.
Qed.

Lemma min3_rot x y z : min3 x y z = min3 y z x.
Proof. unfold min3. rewrite (Rmin_comm x). now rewrite Rmin_assoc. Qed.
Lemma min3_swap x y z : min3 x y z = min3 y x z.
Proof. unfold min3. rewrite !Rmin_assoc. now rewrite (Rmin_comm x y). Qed.

(** The kernel, for edges of a triangle in the order given. *)
Lemma kernel_min a b c (e : nat -> R) : e 0%nat = a -> e 1%nat = b -> e 2%nat = c ->
  triangle_edges a b c ->
  minimum_angle e = min3 (acos (cosl a b c)) (acos (cosl b c a)) (acos (cosl c a b)).
Proof.
  intros E0 E1 E2 T. unfold minimum_angle, min_index. cbn [fold_left].
  rewrite E0, E1. unfold Rltb.
  destruct (Rlt_dec b a) as [H1|H1]; cbn [fold_left]; rewrite E2.
  - destruct (Rlt_dec c b) as [H2|H2]; cbn [snd]; unfold num_den; cbn [fold_left Nat.eqb];
      rewrite ?E0, ?E1, ?E2.
    + rewrite (min3_rot (acos (cosl a b c))), (min3_rot (acos (cosl b c a))).
      rewrite min3_first; [|apply te_rot, te_rot, T|lra|lra].
      f_equal. unfold cosl. f_equal; ring.
    + rewrite min3_rot. rewrite min3_first; [|apply te_rot, T|lra|lra].
      f_equal. unfold cosl. f_equal; ring.
  - destruct (Rlt_dec c a) as [H2|H2]; cbn [snd]; unfold num_den; cbn [fold_left Nat.eqb];
      rewrite ?E0, ?E1, ?E2.
    + rewrite (min3_rot (acos (cosl a b c))), (min3_rot (acos (cosl b c a))).
      rewrite min3_first; [|apply te_rot, te_rot, T|lra|lra].
      f_equal. unfold cosl. f_equal; ring.
    + rewrite min3_first; [|exact T|lra|lra].
      f_equal. unfold cosl. f_equal; ring.
Qed.

Definition edge_len (A B C : pt) (i : nat) : R :=
  match i with O => dist B C | 1%nat => dist C A | _ => dist A B end.

Lemma triangle_te A B C : area2 A B C <> 0 ->
  triangle_edges (dist B C) (dist C A) (dist A B).
Proof.
  intros N.
  assert (N1 : area2 B C A <> 0) by now rewrite area_rot.
  assert (N2 : area2 C A B <> 0) by now rewrite area_rot.
  constructor; try (eapply dist_pos; eassumption).
  - rewrite cosl_sym, (dist_sym C A). now apply cos_strict.
  - rewrite cosl_sym, (dist_sym A B). now apply cos_strict.
  - rewrite cosl_sym, (dist_sym B C). now apply cos_strict.
Qed.

(** The value is the smallest interior angle, in whatever order the edges of
    the triangle are numbered; it is positive and at most 60 degrees. *)
Theorem C68_minimum_angle A B C s :
  area2 A B C <> 0 -> numbering s ->
  minimum_angle (fun i => edge_len A B C (s i))
  = Rmin (angle A B C) (Rmin (angle B C A) (angle C A B)).
Proof.
  intros N [S1 S2].
  assert (N1 : area2 B C A <> 0) by now rewrite area_rot.
  assert (N2 : area2 C A B <> 0) by now rewrite area_rot.
  assert (T := triangle_te A B C N).
  assert (Ts := te_swap _ _ _ T).
  unfold angle. rewrite !cosine_rule; try (eapply dist_pos; eassumption);
    try (rewrite dist_sym; eapply dist_pos; eassumption).
  set (a := dist B C) in *. set (b := dist C A) in *. set (c := dist A B) in *.
  rewrite (dist_sym A C), (dist_sym B A), (dist_sym C B). fold a b c.
  change (Rmin (acos (cosl a c b)) (Rmin (acos (cosl b a c)) (acos (cosl c b a))))
    with (min3 (acos (cosl a c b)) (acos (cosl b a c)) (acos (cosl c b a))).
  rewrite (cosl_sym a c b), (cosl_sym b a c), (cosl_sym c b a).
  assert (L0 := S1 0%nat ltac:(lia)). assert (L1 := S1 1%nat ltac:(lia)).
  assert (L2 := S1 2%nat ltac:(lia)).
  assert (D1 : s 0%nat <> s 1%nat) by (intros E; apply S2 in E; lia).
  assert (D2 : s 0%nat <> s 2%nat) by (intros E; apply S2 in E; lia).
  assert (D3 : s 1%nat <> s 2%nat) by (intros E; apply S2 in E; lia).
  destruct (s 0%nat) as [|[|[|]]] eqn:Z0; try lia;
  destruct (s 1%nat) as [|[|[|]]] eqn:Z1; try lia;
  destruct (s 2%nat) as [|[|[|]]] eqn:Z2; try lia.
  - rewrite (kernel_min a b c); [reflexivity|now rewrite ?Z0, ?Z1, ?Z2..|exact T].
  - rewrite (kernel_min a c b);
      [|now rewrite ?Z0, ?Z1, ?Z2..|apply te_swap, te_rot, te_rot, T].
    rewrite (cosl_sym a c b), (cosl_sym c b a), (cosl_sym b a c).
    rewrite (min3_rot (acos (cosl a b c)) (acos (cosl b c a))), min3_swap.
    now rewrite min3_rot, min3_rot.
  - rewrite (kernel_min b a c); [|now rewrite ?Z0, ?Z1, ?Z2..|exact Ts].
    rewrite (cosl_sym b a c), (cosl_sym a c b), (cosl_sym c b a). apply min3_swap.
  - rewrite (kernel_min b c a); [|now rewrite ?Z0, ?Z1, ?Z2..|apply te_rot, T].
    symmetry. apply min3_rot.
  - rewrite (kernel_min c a b); [|now rewrite ?Z0, ?Z1, ?Z2..|apply te_rot, te_rot, T].
    apply min3_rot.
  - rewrite (kernel_min c b a); [|now rewrite ?Z0, ?Z1, ?Z2..|apply te_swap, te_rot, T].
    rewrite (cosl_sym c b a), (cosl_sym b a c), (cosl_sym a c b).
    rewrite min3_swap. symmetry. apply min3_rot.
Qed.

Lemma cos_PI3' : cos (PI / 3) = / 2.
Proof. rewrite cos_PI3. lra. Qed.

Theorem C68_minimum_angle_range A B C s :
  area2 A B C <> 0 -> numbering s ->
  0 < minimum_angle (fun i => edge_len A B C (s i)) <= PI / 3.
Proof.
  intros N S. rewrite C68_minimum_angle by assumption.
  assert (N1 : area2 B C A <> 0) by now rewrite area_rot.
  assert (N2 : area2 C A B <> 0) by now rewrite area_rot.
  assert (T := triangle_te A B C N).
  unfold angle. rewrite !cosine_rule; try (eapply dist_pos; eassumption);
    try (rewrite dist_sym; eapply dist_pos; eassumption).
  rewrite (dist_sym A C), (dist_sym B A), (dist_sym C B).
  set (a := dist B C) in *. set (b := dist C A) in *. set (c := dist A B) in *.
  rewrite (cosl_sym a c b), (cosl_sym b a c), (cosl_sym c b a).
  split.
  { destruct T. repeat apply Rmin_glb_lt; apply acos_bound_lt; assumption. }
  assert (P : forall x, / 2 <= x < 1 -> acos x <= PI / 3).
  { intros x X. rewrite <- (acos_cos (PI / 3)) by (assert (Z := PI_RGT_0); split; lra).
    rewrite cos_PI3'. apply acos_le; lra. }
  assert (Q : forall x y z, 0 < x -> 0 < y -> 0 < z -> x <= y -> x <= z -> / 2 <= cosl x y z).
  { intros x y z X Y Z H1 H2. unfold cosl.
    assert (D : 0 < 2 * y * z) by (repeat apply Rmult_lt_0_compat; lra).
    assert (M : x * x <= y * z) by (apply Rmult_le_compat; lra).
    assert (M2 : 0 <= (y - z) * (y - z)) by apply Rle_0_sqr.
    apply Rmult_le_reg_r with (2 * y * z); [exact D|].
    replace ((y * y + z * z - x * x) / (2 * y * z) * (2 * y * z)) with (y * y + z * z - x * x)
      by (field; lra).
    replace (/ 2 * (2 * y * z)) with (y * z) by field. lra. }
  destruct T.
  destruct (Rle_dec a b) as [H1|H1].
  - destruct (Rle_dec a c) as [H2|H2].
    + eapply Rle_trans; [apply Rmin_l|]. apply P. split; [apply Q; assumption|lra].
    + eapply Rle_trans; [apply Rmin_r|]. eapply Rle_trans; [apply Rmin_r|].
      apply P. split; [apply Q; lra|lra].
  - destruct (Rle_dec b c) as [H2|H2].
    + eapply Rle_trans; [apply Rmin_r|]. eapply Rle_trans; [apply Rmin_l|].
      apply P. split; [apply Q; lra|lra].
    + eapply Rle_trans; [apply Rmin_r|]. eapply Rle_trans; [apply Rmin_r|].
      apply P. split; [apply Q; lra|lra].
Qed.

(** The right-angled triangle with equal legs: 45 degrees. *)
Example C68_angle_case :
  minimum_angle (edge_len (0, 0) (1, 0) (0, 1)) = PI / 4.
Proof.
  change (edge_len (0, 0) (1, 0) (0, 1)) with (fun i => edge_len (0, 0) (1, 0) (0, 1) ((fun i => i) i)).
  rewrite C68_minimum_angle.
  2: { unfold area2, vec. cbn. lra. }
  2: { split; intros; lia. }
  unfold angle, dist, dotp, vec. cbn [fst snd].
  replace ((1 - 0) * (0 - 0) + (0 - 0) * (1 - 0)) with 0 by ring.
  replace ((0 - 1) * (0 - 1) + (1 - 0) * (1 - 0)) with 2 by ring.
  replace ((0 - 1) * (0 - 1) + (0 - 0) * (0 - 0)) with 1 by ring.
  replace ((0 - 1) * (0 - 1) + (1 - 0) * (0 - 0)) with 1 by ring.
  replace ((0 - 0) * (0 - 0) + (0 - 1) * (0 - 1)) with 1 by ring.
  replace ((1 - 0) * (1 - 0) + (0 - 1) * (0 - 1)) with 2 by ring.
  replace ((0 - 0) * (1 - 0) + (0 - 1) * (0 - 1)) with 1 by ring.
  rewrite sqrt_1.
  replace (1 / (sqrt 2 * 1)) with (/ sqrt 2).
  2: { field. apply Rgt_not_eq, sqrt_lt_R0. lra. }
  replace (1 / (1 * sqrt 2)) with (/ sqrt 2).
  2: { field. apply Rgt_not_eq, sqrt_lt_R0. lra. }
  replace (0 / (sqrt ((1 - 0) * (1 - 0) + (0 - 0) * (0 - 0)) * sqrt ((0 - 0) * (0 - 0) + (1 - 0) * (1 - 0)))) with 0
    by (unfold Rdiv; ring).
  rewrite acos_0, acos_inv_sqrt2. assert (X := PI_RGT_0).
  rewrite (Rmin_left (PI / 4)) by lra. apply Rmin_right. lra.
Qed.
