(** C70: the CFL coefficients of the time integrators. *)

From Coq Require Import Reals List String Arith Lia Lra FunctionalExtensionality.
From Verif Require Import RK_Model RK_Spec RK_Proofs RK_Proofs4 Cfl_Model Stable_Spec Stable_Proofs.
Import ListNotations.
Open Scope R_scope.

Definition table (m : list (list R)) (i j : nat) : R := nth j (nth i m []) 0.
Definition vect (l : list R) (i : nat) : R := nth i l 0.

Lemma all_below n (P : nat -> Prop) : Forall P (seq 0 n) -> forall i, (i < n)%nat -> P i.
Proof. intros H i Hi. rewrite Forall_forall in H. apply H. apply in_seq. lia. Qed.

Ltac below := match goal with
  | H : (?i < S ?n)%nat |- _ =>
      destruct (Nat.eq_dec i n) as [->|]; [clear H|assert ((i < n)%nat) by lia; clear H]; below
  | H : (?i < 0)%nat |- _ => exfalso; lia
  | _ => idtac
  end.
Ltac split_index i n H :=
  match n with
  | O => exfalso; lia
  | S ?m => let E := fresh "E" in destruct (Nat.eq_dec i m) as [E|E]; [subst i|
              let H' := fresh "H" in assert (H' : (i < m)%nat) by lia; clear H E; split_index i m H']
  end.
Ltac cases2 i j n m Hi Hj := split_index i n Hi; split_index j m Hj.
Ltac numbers := cbn -[Rplus Rmult Rminus Rdiv Ropp IZR sqrt Rinv]; try lia; try lra.
Ltac averaging_tac :=
  match goal with |- averaging ?n _ _ _ _ _ =>
    let sn := eval cbv in (S n) in
    split; [lra|]; split; [intros i j Hi Hj; apply Nat.lt_succ_r in Hi; cases2 i j sn n Hi Hj; numbers|];
    split; [intros i Hi; apply Nat.lt_succ_r in Hi; split_index i sn Hi; numbers|];
    split; [intros i Hi; apply Nat.lt_succ_r in Hi; split_index i sn Hi; numbers|];
    split; [intros i j Hi Hij Hj; cases2 i j n n Hi Hj; numbers|];
    split; [intros i Hi; split_index i n Hi; numbers|];
    split; [intros i j Hi Hj; apply Nat.lt_succ_r in Hi; cases2 i j sn n Hi Hj; unfold row; numbers|];
    intros i j Hi Hij Hj; cases2 i j n n Hi Hj; numbers
  end.

Lemma avg_ForwardEuler : averaging 1 (ta ForwardEulerTab) (tb ForwardEulerTab) (1)
  (table [[0]; [1]]) (vect [1; 0]).
Proof. averaging_tac. Qed.

Lemma avg_SSPRK33 : averaging 3 (ta SSPRK33Tab) (tb SSPRK33Tab) (1)
  (table [[0; 0; 0]; [1; 0; 0]; [0; 1/4; 0]; [0; 0; 2/3]]) (vect [1; 0; 3/4; 1/3]).
Proof. averaging_tac. Qed.

Lemma avg_ERKLSPUM2 : averaging 3 (ta ERKLSPUM2Tab) (tb ERKLSPUM2Tab) (6/5)
  (table [[0; 0; 0]; [1; 0; 0]; [0; 11/20; 0]; [78/275; 0; 24/55]]) (vect [1; 0; 9/20; 7/25]).
Proof. averaging_tac. Qed.

Lemma avg_ERKLPUM2 : averaging 3 (ta ERKLPUM2Tab) (tb ERKLPUM2Tab) (2)
  (table [[0; 0; 0]; [1; 0; 0]; [0; 1; 0]; [0; 0; 2/3]]) (vect [1; 0; 0; 1/3]).
Proof. averaging_tac. Qed.

Lemma avg_ImplicitMidpoint : averaging 1 (ta ImplicitMidpointTab) (tb ImplicitMidpointTab) (2)
  (table [[1/2]; [1]]) (vect [1/2; 0]).
Proof. averaging_tac. Qed.

Lemma avg_CrankNicolson : averaging 2 (ta CrankNicolsonTab) (tb CrankNicolsonTab) (2)
  (table [[0; 0]; [1/2; 1/2]; [1/2; 1/2]]) (vect [1; 0; 0]).
Proof. averaging_tac. Qed.

Lemma avg_DIRKLSPUM2 : averaging 3 (ta DIRKLSPUM2Tab) (tb DIRKLSPUM2Tab) (42/11)
  (table [[84/205; 0; 0]; [121/205; 84/205; 0]; [139271/420250; 53361/210125; 84/205]; [15246/210125; 20622/210125; 168/205]]) (vect [121/205; 0; 2057/420250; 2057/210125]).
Proof. averaging_tac. Qed.

Lemma avg_DIRKLPUM2 : averaging 3 (ta DIRKLPUM2Tab) (tb DIRKLPUM2Tab) (3089/1000)
  (table [[3089/8589; 0; 0]; [174142375/516396447; 3089/8589; 0]; [6054053875/30172306689; 1544500/3512901; 3089/8589]; [66858563120/633618440469; 725915/3512901; 33979/51534]]) (vect [5500/8589; 156534125/516396447; 1191125/30172306689; 36100587875/1267236880938]).
Proof. averaging_tac. Qed.

Lemma avg_ESDIRKMidpoint : averaging 2 (ta ESDIRKMidpointTab) (tb ESDIRKMidpointTab) (2)
  (table [[0; 0]; [0; 1/2]; [0; 1]]) (vect [1; 1/2; 0]).
Proof. averaging_tac. Qed.

Lemma avg_ESDIRKTrapezoid : averaging 2 (ta ESDIRKTrapezoidTab) (tb ESDIRKTrapezoidTab) (2)
  (table [[0; 0]; [1/2; 1/2]; [1/2; 1/2]]) (vect [1; 0; 0]).
Proof. averaging_tac. Qed.

(** backward Euler is an average for every step size *)
Lemma avg_BackwardEuler r : 0 < r ->
  averaging 1 (ta BackwardEulerTab) (tb BackwardEulerTab) r
    (table [[r / (1 + r)]; [r / (1 + r)]]) (vect [1 / (1 + r); 1 / (1 + r)]).
Proof.
  intros Hr.
  assert (Hp : 0 < / (1 + r)) by (apply Rinv_0_lt_compat; lra).
  assert (Hq : 0 < r * / (1 + r)) by (apply Rmult_lt_0_compat; assumption).
  assert (Hs : r * / (1 + r) = 1 - / (1 + r)) by (field; lra).
  split; [exact Hr|]. split; [intros i j Hi Hj; apply Nat.lt_succ_r in Hi; cases2 i j 2%nat 1%nat Hi Hj; numbers|].
  split; [intros i Hi; apply Nat.lt_succ_r in Hi; split_index i 2%nat Hi; numbers|].
  split; [intros i Hi; apply Nat.lt_succ_r in Hi; split_index i 2%nat Hi; numbers; field; lra|].
  split; [intros i j Hi Hij Hj; lia|].
  split; [intros i Hi; split_index i 1%nat Hi; numbers|].
  split; [intros i j Hi Hj; apply Nat.lt_succ_r in Hi; cases2 i j 2%nat 1%nat Hi Hj; unfold row; numbers; field; lra|].
  intros i j Hi Hij Hj; lia.
Qed.

Lemma sqrt2_facts : sqrt 2 * sqrt 2 = 2 /\ 1 < sqrt 2 < 3/2.
Proof.
  assert (H : sqrt 2 * sqrt 2 = 2) by (apply sqrt_sqrt; lra).
  assert (H0 : 0 <= sqrt 2) by apply sqrt_pos. repeat split; try exact H; nra.
Qed.

Lemma avg_DIRK22 : averaging 2 (ta DIRK22Tab) (tb DIRK22Tab) (1 + sqrt 2)
  (table [[sqrt 2 - 1; 0]; [2 - sqrt 2; sqrt 2 - 1]; [2 - sqrt 2; sqrt 2 - 1]])
  (vect [2 - sqrt 2; 0; 0]).
Proof.
  destruct sqrt2_facts as (H2 & Ha & Hb). set (s := sqrt 2) in *.
  split; [lra|]. split; [intros i j Hi Hj; apply Nat.lt_succ_r in Hi; cases2 i j 3%nat 2%nat Hi Hj; numbers|].
  split; [intros i Hi; apply Nat.lt_succ_r in Hi; split_index i 3%nat Hi; numbers|].
  split; [intros i Hi; apply Nat.lt_succ_r in Hi; split_index i 3%nat Hi; numbers|].
  split; [intros i j Hi Hij Hj; cases2 i j 2%nat 2%nat Hi Hj; numbers|].
  split; [intros i Hi; split_index i 2%nat Hi; numbers|].
  split; [intros i j Hi Hj; apply Nat.lt_succ_r in Hi; cases2 i j 3%nat 2%nat Hi Hj; unfold row; numbers;
          unfold gamma22; fold s; nra|].
  intros i j Hi Hij Hj; cases2 i j 2%nat 2%nat Hi Hj; numbers.
Qed.

(** ** Linear problems *)

Section LinearBound.
Context {D : Type}.
Variable N : (D -> R) -> R.
Hypothesis HN : convex_measure N.
Variable A : (D -> R) -> D -> R.
Hypothesis HA : linear_operator A.

Lemma lin_comb4 a b c d (f g h k : D -> R) x :
  A (fun y => a * f y + b * g y + c * h y + d * k y) x = a * A f x + b * A g x + c * A h x + d * A k x.
Proof.
  destruct HA as [Hp Hs].
  rewrite (Hp (fun y => a * f y + b * g y + c * h y) (fun y => d * k y)).
  rewrite (Hp (fun y => a * f y + b * g y) (fun y => c * h y)).
  rewrite (Hp (fun y => a * f y) (fun y => b * g y)). rewrite !Hs. ring.
Qed.

(** an implicit stage does not increase the measure *)
Lemma resolvent_bound t g (u w : D -> R) : 0 < t -> 0 < g -> euler_bounded N t A ->
  (forall x, A w x = (w x - u x) / g) -> N w <= N u.
Proof.
  intros Ht Hg HE Hw.
  assert (Hq : 0 < g / (t + g) < 1).
  { split; [apply Rmult_lt_0_compat; [exact Hg|apply Rinv_0_lt_compat; lra]|].
    apply Rmult_lt_reg_r with (t + g); [lra|]. unfold Rdiv. rewrite Rmult_assoc, Rinv_l by lra. lra. }
  assert (E : w = fun x => (1 - g / (t + g)) * u x + g / (t + g) * (w x + t * A w x)).
  { apply functional_extensionality; intros x. rewrite Hw. field. lra. }
  assert (B := HN u (fun x => w x + t * A w x) (g / (t + g)) ltac:(lra)).
  cbv beta in B. rewrite <- E in B. assert (H := HE w). set (q := g / (t + g)) in *.
  assert (q * N (fun x => w x + t * A w x) <= q * N w) by (apply Rmult_le_compat_l; lra).
  nra.
Qed.

(** the stability function of both three-stage implicit schemes of Higueras
    et al. is an average of forward Euler steps of size dt / 4.34, with
    implicit stages *)
Lemma higueras_bound u w1 w2 w3 : euler_bounded N (50/217) A ->
  (forall x, A w1 x = (w1 x - u x) / (2/11)) ->
  (forall x, A w2 x = (w2 x - w1 x) / (2/11)) ->
  (forall x, A w3 x = (w3 x - w2 x) / (2/11)) ->
  N (fun x => 13/8 * w1 x - 23/4 * w2 x + 41/8 * w3 x) <= N u.
Proof.
  intros HE H1 H2 H3.
  assert (B3 : N w3 <= N u).
  { apply Rle_trans with (N w2); [apply (resolvent_bound (50/217) (2/11)); (lra || assumption)|].
    apply Rle_trans with (N w1); [apply (resolvent_bound (50/217) (2/11)); (lra || assumption)|].
    apply (resolvent_bound (50/217) (2/11)); (lra || assumption). }
  set (G := fun v x => v x + 50/217 * A v x).
  assert (E1 : G w3 = fun x => 492/217 * w3 x + -275/217 * w2 x + 0 * w1 x + 0 * u x).
  { apply functional_extensionality; intros x. unfold G. rewrite H3. field. }
  assert (E2 : G (G w3) = fun x => (492/217)^2 * w3 x + -2 * (492/217) * (275/217) * w2 x + (275/217)^2 * w1 x + 0 * u x).
  { rewrite E1. apply functional_extensionality; intros x. unfold G. rewrite lin_comb4, H3, H2, H1. field. }
  assert (E3 : G (G (G w3)) = fun x => (492/217)^3 * w3 x + -3 * (492/217)^2 * (275/217) * w2 x
                                        + 3 * (492/217) * (275/217)^2 * w1 x + -(275/217)^3 * u x).
  { rewrite E2. apply functional_extensionality; intros x. unfold G. rewrite lin_comb4, H3, H2, H1. field. }
  assert (E4 : forall x, G (G (G (G w3))) x = (492/217)^4 * w3 x - 4 * (492/217)^3 * (275/217) * w2 x
     + 6 * (492/217)^2 * (275/217)^2 * w1 x - 3 * (492/217) * (275/217)^3 * u x - (275/217)^3 * G u x).
  { intros x. rewrite E3. unfold G. rewrite lin_comb4, H3, H2, H1. field. }
  set (y := fun j => match j with O => u | 1%nat => G u | 2%nat => G (G w3) | 3%nat => G (G (G w3)) | _ => G (G (G (G w3))) end).
  set (c := vect [158675/23238144; 59675/423450624; 589413013/595320000; 316767703/109836540000; 2217373921/32023453440000]).
  replace (fun x => 13/8 * w1 x - 23/4 * w2 x + 41/8 * w3 x) with (fun x => rsum 5 (fun j => c j * y j x)).
  2:{ apply functional_extensionality; intros x. cbn [rsum y]. rewrite E4, E3, E2. unfold c, vect. cbn [nth]. field. }
  eapply Rle_trans.
  { apply (jensen N 5 c y HN).
    - intros j Hj. split_index j 5%nat Hj; unfold c, vect; cbn [nth]; lra.
    - cbn [rsum]. unfold c, vect. cbn [nth]. lra. }
  assert (B : forall j, (j < 5)%nat -> N (y j) <= N u).
  { assert (HG : forall v, N (G v) <= N v) by exact HE.
    assert (T2 : N (G (G w3)) <= N u) by (eapply Rle_trans; [apply HG|]; eapply Rle_trans; [apply HG|exact B3]).
    assert (T3 : N (G (G (G w3))) <= N u) by (eapply Rle_trans; [apply HG|exact T2]).
    intros j Hj. split_index j 5%nat Hj; cbn [y].
    - eapply Rle_trans; [apply HG|exact T3].
    - exact T3.
    - exact T2.
    - apply HG.
    - apply Rle_refl. }
  assert (B0 := B 0%nat ltac:(lia)). assert (B1 := B 1%nat ltac:(lia)). assert (B2 := B 2%nat ltac:(lia)).
  assert (B4 := B 3%nat ltac:(lia)). assert (B5 := B 4%nat ltac:(lia)).
  cbn [rsum]. unfold c, vect. cbn [nth]. lra.
Qed.
End LinearBound.

Lemma scaled_operator {D} (L : (D -> R) -> D -> R) dt :
  linear_operator L -> linear_operator (fun v x => dt * L v x).
Proof.
  intros [Hp Hs]. split; intros; cbv beta; [rewrite Hp|rewrite Hs]; ring.
Qed.

Lemma scaled_euler {D} (N : (D -> R) -> R) tau (L : (D -> R) -> D -> R) dt c : 0 < c ->
  convex_measure N -> euler_bounded N tau L -> 0 <= dt <= c * tau ->
  euler_bounded N (/ c) (fun v x => dt * L v x).
Proof.
  intros Hc HN HE Hdt v.
  assert (H := shorter_euler N tau (dt / c) L HN).
  replace (fun x => v x + / c * (dt * L v x)) with (fun x => v x + dt / c * L v x)
    by (apply functional_extensionality; intros x; unfold Rdiv; ring).
  apply H; [|exact HE]. split.
  - apply Rmult_le_pos; [lra|]. left. apply Rinv_0_lt_compat. exact Hc.
  - apply Rmult_le_reg_r with c; [exact Hc|]. unfold Rdiv. rewrite Rmult_assoc, Rinv_l by lra. lra.
Qed.

Lemma lsum3 {D} (L : (D -> R) -> D -> R) a b c (f g h : D -> R) x : linear_operator L ->
  L (fun y => a * f y + b * g y + c * h y) x = a * L f x + b * L g x + c * L h x.
Proof.
  intros [Hp Hs]. rewrite (Hp (fun y => a * f y + b * g y) (fun y => c * h y)).
  rewrite (Hp (fun y => a * f y) (fun y => b * g y)). rewrite !Hs. ring.
Qed.

Lemma lsum2 {D} (L : (D -> R) -> D -> R) a b (f g : D -> R) x : linear_operator L ->
  L (fun y => a * f y + b * g y) x = a * L f x + b * L g x.
Proof. intros [Hp Hs]. rewrite (Hp (fun y => a * f y) (fun y => b * g y)). rewrite !Hs. ring. Qed.

Lemma higueras_LS {D Env} (L : (D -> R) -> D -> R) dt (e : nat -> Env) u u' N tau :
  linear_operator L -> convex_measure N -> euler_bounded N tau L -> 0 <= dt <= 434/100 * tau ->
  implicit_step 3 (ta DIRKLSPUM2Tab) (tb DIRKLSPUM2Tab) (fun _ => L) dt e u u' -> N u' <= N u.
Proof.
  intros HL HN HE Hdt (k & Hk & Hu').
  set (A := fun v x => dt * L v x).
  assert (HA : linear_operator A) by (apply scaled_operator; exact HL).
  assert (HEA : euler_bounded N (50/217) A).
  { replace (50/217) with (/ (434/100)) by field. apply (scaled_euler N tau L dt (434/100)); (lra || assumption). }
  assert (K0 := Hk 0%nat ltac:(lia)). assert (K1 := Hk 1%nat ltac:(lia)). assert (K2 := Hk 2%nat ltac:(lia)).
  rewrite along_rsum in K0, K1, K2, Hu'.
  cbn [rsum ta tb DIRKLSPUM2Tab tab nth] in K0, K1, K2, Hu'.
  match type of K0 with _ = L ?y => set (y0 := y) in K0 end.
  match type of K1 with _ = L ?y => set (y1 := y) in K1 end.
  match type of K2 with _ = L ?y => set (y2 := y) in K2 end.
  set (w2 := fun x => 121/205 * y0 x + 84/205 * y1 x).
  set (w3 := fun x => 2901/8405 * y0 x + 2224/8405 * y1 x + 16/41 * y2 x).
  replace u' with (fun x => 13/8 * y0 x - 23/4 * w2 x + 41/8 * w3 x).
  - apply (higueras_bound N HN A HA u y0 w2 w3 HEA).
    + intros x. unfold A. rewrite <- K0. unfold y0. field.
    + intros x. unfold A, w2. rewrite (lsum2 L _ _ y0 y1 x HL), <- K0, <- K1. unfold y0, y1. field.
    + intros x. unfold A, w3, w2. rewrite (lsum3 L _ _ _ y0 y1 y2 x HL), <- K0, <- K1, <- K2. unfold y0, y1, y2. field.
  - rewrite Hu'. apply functional_extensionality; intros x. unfold w3, w2, y0, y1, y2. field.
Qed.

Lemma higueras_LP {D Env} (L : (D -> R) -> D -> R) dt (e : nat -> Env) u u' N tau :
  linear_operator L -> convex_measure N -> euler_bounded N tau L -> 0 <= dt <= 434/100 * tau ->
  implicit_step 3 (ta DIRKLPUM2Tab) (tb DIRKLPUM2Tab) (fun _ => L) dt e u u' -> N u' <= N u.
Proof.
  intros HL HN HE Hdt (k & Hk & Hu').
  set (A := fun v x => dt * L v x).
  assert (HA : linear_operator A) by (apply scaled_operator; exact HL).
  assert (HEA : euler_bounded N (50/217) A).
  { replace (50/217) with (/ (434/100)) by field. apply (scaled_euler N tau L dt (434/100)); (lra || assumption). }
  assert (K0 := Hk 0%nat ltac:(lia)). assert (K1 := Hk 1%nat ltac:(lia)). assert (K2 := Hk 2%nat ltac:(lia)).
  rewrite along_rsum in K0, K1, K2, Hu'.
  cbn [rsum ta tb DIRKLPUM2Tab tab nth] in K0, K1, K2, Hu'.
  match type of K0 with _ = L ?y => set (y0 := y) in K0 end.
  match type of K1 with _ = L ?y => set (y1 := y) in K1 end.
  match type of K2 with _ = L ?y => set (y2 := y) in K2 end.
  set (w2 := fun x => 13/41 * y0 x + 28/41 * y1 x).
  set (w3 := fun x => 1015/5043 * y0 x + 2224/5043 * y1 x + 44/123 * y2 x).
  replace u' with (fun x => 13/8 * y0 x - 23/4 * w2 x + 41/8 * w3 x).
  - apply (higueras_bound N HN A HA u y0 w2 w3 HEA).
    + intros x. unfold A. rewrite <- K0. unfold y0. field.
    + intros x. unfold A, w2. rewrite (lsum2 L _ _ y0 y1 x HL), <- K0, <- K1. unfold y0, y1. field.
    + intros x. unfold A, w3, w2. rewrite (lsum3 L _ _ _ y0 y1 y2 x HL), <- K0, <- K1, <- K2. unfold y0, y1, y2. field.
  - rewrite Hu'. apply functional_extensionality; intros x. unfold w3, w2, y0, y1, y2. field.
Qed.

Lemma midpoint_linear {D Env} (L : (D -> R) -> D -> R) dt (e : nat -> Env) u u' N tau :
  linear_operator L -> convex_measure N -> euler_bounded N tau L -> 0 <= dt <= 1 * tau ->
  explicit_step 2 (ta ERKMidpointTab) (tb ERKMidpointTab) (fun _ => L) dt e u u' -> N u' <= N u.
Proof.
  intros HL HN HE Hdt (k & Hk & Hu').
  assert (K0 := Hk 0%nat ltac:(lia)). assert (K1 := Hk 1%nat ltac:(lia)).
  rewrite along_rsum in K0, K1, Hu'. cbn [rsum ta tb ERKMidpointTab tab nth] in K0, K1, Hu'.
  set (G := fun v x => v x + dt * L v x).
  assert (HG : forall v, N (G v) <= N v) by exact (shorter_euler N tau dt L HN ltac:(lra) HE).
  assert (E0 : k 0%nat = L u).
  { rewrite K0. f_equal. apply functional_extensionality; intros x. ring. }
  assert (E1 : forall x, k 1%nat x = L u x + dt / 2 * L (L u) x).
  { intros x. rewrite K1, E0.
    replace (fun x => u x + dt * (0 + 1 / 2 * L u x)) with (fun x => 1 * u x + dt / 2 * L u x)
      by (apply functional_extensionality; intros z; field).
    rewrite (lsum2 L 1 (dt/2) u (L u) x HL). ring. }
  replace u' with (fun x => (1 - 1/2) * u x + 1/2 * G (G u) x).
  - eapply Rle_trans; [apply (HN u (G (G u)) (1/2)); lra|].
    assert (H1 := HG u). assert (H2 := HG (G u)). lra.
  - rewrite Hu'. apply functional_extensionality; intros x. rewrite E1. unfold G at 1.
    replace (G u) with (fun x => 1 * u x + dt * L u x) by (apply functional_extensionality; intros z; unfold G; ring).
    rewrite (lsum2 L 1 dt u (L u) x HL). field.
Qed.

(** ** The theorems *)

(** For a linear problem, a step no longer than the declared coefficient times
    a step for which forward Euler does not increase a convex measure does not
    increase it either: implicit schemes with a finite coefficient *)
Theorem C70_declared_implicit name T c : In (name, T, Some c) implicit_schemes ->
  forall (D Env : Type) (L : (D -> R) -> D -> R) dt (e : nat -> Env) u u' N tau,
  linear_operator L -> convex_measure N -> euler_bounded N tau L -> 0 <= dt <= c * tau ->
  implicit_step (ns T) (ta T) (tb T) (fun _ => L) dt e u u' -> N u' <= N u.
Proof.
  intros Hin D Env L dt e u u' N tau HL HN HE Hdt Hst.
  cbn [In implicit_schemes] in Hin.
  repeat (destruct Hin as [Hin|Hin]; [try discriminate Hin; apply (f_equal snd) in Hin as Ec; apply (f_equal (fun p => snd (fst p))) in Hin;
    cbn [fst snd] in Ec, Hin; apply (f_equal (fun o => match o with Some c => c | None => 0 end)) in Ec; cbv beta iota in Ec; subst T c|]); [..|contradiction].
  - exact (higueras_LS L dt e u u' N tau HL HN HE Hdt Hst).
  - exact (higueras_LP L dt e u u' N tau HL HN HE Hdt Hst).
  - apply (averaged_step _ _ _ _ _ _ (fun _ => L) dt e u u' N tau avg_ESDIRKMidpoint HN); [intros; exact HE|lra|exact Hst].
Qed.

Theorem C70_declared_explicit name T c : In (name, T, Some c) explicit_schemes ->
  forall (D Env : Type) (L : (D -> R) -> D -> R) dt (e : nat -> Env) u u' N tau,
  linear_operator L -> convex_measure N -> euler_bounded N tau L -> 0 <= dt <= c * tau ->
  explicit_step (ns T) (ta T) (tb T) (fun _ => L) dt e u u' -> N u' <= N u.
Proof.
  intros Hin D Env L dt e u u' N tau HL HN HE Hdt Hst.
  cbn [In explicit_schemes] in Hin.
  repeat (destruct Hin as [Hin|Hin]; [try discriminate Hin; apply (f_equal snd) in Hin as Ec; apply (f_equal (fun p => snd (fst p))) in Hin;
    cbn [fst snd] in Ec, Hin; apply (f_equal (fun o => match o with Some c => c | None => 0 end)) in Ec; cbv beta iota in Ec; subst T c|]); [..|contradiction].
  5:{ exact (midpoint_linear L dt e u u' N tau HL HN HE Hdt Hst). }
  all: apply explicit_implicit in Hst; [|intros i Hi; cbn in Hi; first [split_index i 3%nat Hi; reflexivity|split_index i 1%nat Hi; reflexivity]].
  - apply (averaged_step _ _ _ _ _ _ (fun _ => L) dt e u u' N tau avg_ForwardEuler HN); [intros; exact HE|lra|exact Hst].
  - apply (averaged_step _ _ _ _ _ _ (fun _ => L) dt e u u' N tau avg_SSPRK33 HN); [intros; exact HE|lra|exact Hst].
  - apply (averaged_step _ _ _ _ _ _ (fun _ => L) dt e u u' N tau avg_ERKLSPUM2 HN); [intros; exact HE|lra|exact Hst].
  - apply (averaged_step _ _ _ _ _ _ (fun _ => L) dt e u u' N tau avg_ERKLPUM2 HN); [intros; exact HE|lra|exact Hst].
Qed.

(** The explicit schemes other than the midpoint rule keep the promise for
    nonlinear and time dependent problems too *)
Theorem C70_explicit_nonlinear name T c : In (name, T, Some c) explicit_schemes ->
  name <> "ERKMidpoint"%string ->
  forall (D Env : Type) (F : Env -> (D -> R) -> D -> R) dt (e : nat -> Env) u u' N tau,
  convex_measure N -> (forall i, (i < ns T)%nat -> euler_bounded N tau (F (e i))) -> 0 <= dt <= c * tau ->
  explicit_step (ns T) (ta T) (tb T) F dt e u u' -> N u' <= N u.
Proof.
  intros Hin Hname D Env F dt e u u' N tau HN HE Hdt Hst.
  cbn [In explicit_schemes] in Hin.
  repeat (destruct Hin as [Hin|Hin]; [try discriminate Hin; apply (f_equal snd) in Hin as Ec;
    apply (f_equal (fun p => fst (fst p))) in Hin as En; apply (f_equal (fun p => snd (fst p))) in Hin;
    cbn [fst snd] in Ec, Hin, En; apply (f_equal (fun o => match o with Some c => c | None => 0 end)) in Ec; cbv beta iota in Ec; subst T c|]); [..|contradiction].
  5:{ subst name. contradiction Hname. reflexivity. }
  all: apply explicit_implicit in Hst; [|intros i Hi; cbn in Hi; first [split_index i 3%nat Hi; reflexivity|split_index i 1%nat Hi; reflexivity]].
  - apply (averaged_step _ _ _ _ _ _ F dt e u u' N tau avg_ForwardEuler HN); [exact HE|lra|exact Hst].
  - apply (averaged_step _ _ _ _ _ _ F dt e u u' N tau avg_SSPRK33 HN); [exact HE|lra|exact Hst].
  - apply (averaged_step _ _ _ _ _ _ F dt e u u' N tau avg_ERKLSPUM2 HN); [exact HE|lra|exact Hst].
  - apply (averaged_step _ _ _ _ _ _ F dt e u u' N tau avg_ERKLPUM2 HN); [exact HE|lra|exact Hst].
Qed.

(** Limits for the implicit schemes and nonlinear, time dependent problems *)
Theorem C70_implicit_nonlinear T c :
  In (T, c) [(ImplicitMidpointTab, 2); (CrankNicolsonTab, 2); (ESDIRKMidpointTab, 2); (ESDIRKTrapezoidTab, 2);
             (DIRK22Tab, 1 + sqrt 2); (DIRKLSPUM2Tab, 42/11); (DIRKLPUM2Tab, 3089/1000)] ->
  forall (D Env : Type) (F : Env -> (D -> R) -> D -> R) dt (e : nat -> Env) u u' N tau,
  convex_measure N -> (forall i, (i < ns T)%nat -> euler_bounded N tau (F (e i))) -> 0 <= dt <= c * tau ->
  implicit_step (ns T) (ta T) (tb T) F dt e u u' -> N u' <= N u.
Proof.
  intros Hin D Env F dt e u u' N tau HN HE Hdt Hst. cbn [In] in Hin.
  repeat (destruct Hin as [Hin|Hin]; [apply (f_equal snd) in Hin as Ec; apply (f_equal fst) in Hin; cbn [fst snd] in Ec, Hin; subst T c|]); [..|contradiction].
  - apply (averaged_step _ _ _ _ _ _ F dt e u u' N tau avg_ImplicitMidpoint HN); [exact HE|lra|exact Hst].
  - apply (averaged_step _ _ _ _ _ _ F dt e u u' N tau avg_CrankNicolson HN); [exact HE|lra|exact Hst].
  - apply (averaged_step _ _ _ _ _ _ F dt e u u' N tau avg_ESDIRKMidpoint HN); [exact HE|lra|exact Hst].
  - apply (averaged_step _ _ _ _ _ _ F dt e u u' N tau avg_ESDIRKTrapezoid HN); [exact HE|lra|exact Hst].
  - apply (averaged_step _ _ _ _ _ _ F dt e u u' N tau avg_DIRK22 HN); [exact HE|lra|exact Hst].
  - apply (averaged_step _ _ _ _ _ _ F dt e u u' N tau avg_DIRKLSPUM2 HN); [exact HE|lra|exact Hst].
  - apply (averaged_step _ _ _ _ _ _ F dt e u u' N tau avg_DIRKLPUM2 HN); [exact HE|lra|exact Hst].
Qed.

(** Backward Euler has no limit at all *)
Theorem C70_backward_euler {D Env : Type} (F : Env -> (D -> R) -> D -> R) dt (e : nat -> Env) u u' N tau :
  0 < tau -> convex_measure N -> euler_bounded N tau (F (e 0%nat)) -> 0 <= dt ->
  implicit_step (ns BackwardEulerTab) (ta BackwardEulerTab) (tb BackwardEulerTab) F dt e u u' -> N u' <= N u.
Proof.
  intros Ht HN HE Hdt Hst.
  assert (Hr : 0 < dt / tau + 1).
  { assert (0 <= dt / tau); [|lra]. apply Rmult_le_pos; [exact Hdt|]. left. apply Rinv_0_lt_compat. exact Ht. }
  apply (averaged_step _ _ _ _ _ _ F dt e u u' N tau (avg_BackwardEuler _ Hr) HN).
  - intros i Hi. replace i with 0%nat by lia. exact HE.
  - split; [exact Hdt|]. replace ((dt / tau + 1) * tau) with (dt + tau) by (field; lra). lra.
  - exact Hst.
Qed.

Print Assumptions C70_declared_implicit.
Print Assumptions C70_declared_explicit.
Print Assumptions C70_explicit_nonlinear.
Print Assumptions C70_implicit_nonlinear.
Print Assumptions C70_backward_euler.
