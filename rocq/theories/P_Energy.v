(** C70, continued: implicit schemes and energy. *)

From Coq Require Import Reals List String Arith Lia Lra FunctionalExtensionality.
From Verif Require Import RK_Model RK_Spec RK_Proofs RK_Proofs4 Cfl_Model Stable_Spec Stable_Proofs P_Stable.
Import ListNotations.
Open Scope R_scope.

Section Gram.
Context {D : Type}.
Variable ip : (D -> R) -> (D -> R) -> R.
Hypothesis Hip : inner_product ip.

Lemma ip_sym u v : ip u v = ip v u.
Proof. apply Hip. Qed.
Lemma ip_plus_l u v w : ip (fun x => u x + v x) w = ip u w + ip v w.
Proof. apply Hip. Qed.
Lemma ip_scal_l a u w : ip (fun x => a * u x) w = a * ip u w.
Proof. apply Hip. Qed.
Lemma ip_plus_r u v w : ip w (fun x => u x + v x) = ip w u + ip w v.
Proof. rewrite ip_sym, ip_plus_l, (ip_sym u w), (ip_sym v w). reflexivity. Qed.
Lemma ip_scal_r a u w : ip w (fun x => a * u x) = a * ip w u.
Proof. rewrite ip_sym, ip_scal_l, (ip_sym u w). reflexivity. Qed.
Lemma ip_zero_r w : ip w (fun _ => 0) = 0.
Proof.
  assert (H := ip_scal_r 0 (fun _ => 0) w). cbv beta in H.
  replace (fun _ : D => 0 * 0) with (fun _ : D => 0) in H by (apply functional_extensionality; intros; ring). lra.
Qed.
Lemma ip_rsum_r n (s : nat -> R) (k : nat -> D -> R) w :
  ip w (fun x => rsum n (fun j => s j * k j x)) = rsum n (fun j => s j * ip w (k j)).
Proof.
  induction n; cbn [rsum]; [apply ip_zero_r|].
  rewrite (ip_plus_r (fun x => rsum n (fun j => s j * k j x)) (fun x => s n * k n x)), IHn, ip_scal_r. reflexivity.
Qed.
Lemma ip_rsum_l n (s : nat -> R) (k : nat -> D -> R) w :
  ip (fun x => rsum n (fun j => s j * k j x)) w = rsum n (fun j => s j * ip (k j) w).
Proof. rewrite ip_sym, ip_rsum_r. apply rsum_ext. intros j Hj. rewrite ip_sym. reflexivity. Qed.
End Gram.

Lemma operator_rsum {D} (A : (D -> R) -> D -> R) n (t : nat -> R) (y : nat -> D -> R) x : linear_operator A ->
  A (fun z => rsum n (fun i => t i * y i z)) x = rsum n (fun i => t i * A (y i) x).
Proof.
  intros [Hp Hs]. induction n; cbn [rsum].
  - assert (H := Hs 0 (fun _ => 0) x). cbv beta in H.
    replace (fun _ : D => 0 * 0) with (fun _ : D => 0) in H by (apply functional_extensionality; intros; ring). lra.
  - rewrite (Hp (fun z => rsum n (fun i => t i * y i z)) (fun z => t n * y n z)), IHn, Hs. reflexivity.
Qed.

(** products of the difference of two solutions and of their stage increments *)
Record gram (n : nat) (a : nat -> nat -> R) (b : nat -> R) (U : R) (P : nat -> R) (G : nat -> nat -> R) (U' : R) : Prop := {
  g_new : U' = U + 2 * rsum n (fun j => b j * P j) + rsum n (fun i => b i * rsum n (fun j => b j * G i j));
  g_sym : forall i j, G i j = G j i;
  g_stage : forall t : nat -> R,
    rsum n (fun i => t i * rsum n (fun j => t j * (P j + rsum n (fun l => a i l * G l j)))) <= 0;
  g_square : forall (c : R) (s : nat -> R),
    0 <= c * c * U + 2 * c * rsum n (fun j => s j * P j) + rsum n (fun i => s i * rsum n (fun j => s j * G i j)) }.

Lemma gram_of_steps {D Env} n a b (L : (D -> R) -> D -> R) (f : Env -> D -> R) dt (e : nat -> Env) ip u u' v v' :
  (forall i j, (i < n)%nat -> (i < j)%nat -> (j < n)%nat -> a i j = 0) ->
  linear_operator L -> inner_product ip -> dissipative ip L -> 0 <= dt ->
  implicit_step n a b (fun e y x => L y x + f e x) dt e u u' ->
  implicit_step n a b (fun e y x => L y x + f e x) dt e v v' ->
  exists P G, gram n a b (distance2 ip u v) P G (distance2 ip u' v').
Proof.
  intros Hlow HL Hip Hd Hdt (k & Hk & Hu) (l & Hl & Hv).
  set (w := fun x => u x - v x).
  set (kap := fun i x => dt * (k i x - l i x)).
  set (y := fun i x => w x + rsum n (fun j => a i j * kap j x)).
  assert (Hlin : forall (p q : D -> R) x, L (fun z => p z - q z) x = L p x - L q x).
  { intros p q x. destruct HL as [Hp Hs].
    replace (fun z => p z - q z) with (fun z => p z + (-1) * q z) by (apply functional_extensionality; intros; ring).
    rewrite (Hp p (fun z => -1 * q z)), Hs. ring. }
  assert (Hkap : forall i, (i < n)%nat -> forall x, kap i x = dt * L (y i) x).
  { intros i Hi x. unfold kap. rewrite (Hk i Hi), (Hl i Hi).
    rewrite (along_full u dt n i (a i) k Hi), (along_full v dt n i (a i) l Hi) by (intros; apply Hlow; assumption).
    replace (y i) with (fun z => along u dt n (a i) k z - along v dt n (a i) l z).
    - rewrite Hlin. ring.
    - apply functional_extensionality; intros z. unfold y, w, kap. rewrite !along_rsum.
      rewrite (rsum_ext n (fun j => a i j * (dt * (k j z - l j z))) (fun j => dt * (a i j * k j z - a i j * l j z))) by (intros; ring).
      rewrite rsum_scal, rsum_minus. ring. }
  exists (fun j => ip w (kap j)), (fun i j => ip (kap i) (kap j)).
  assert (Eu : (fun x => u' x - v' x) = fun x => w x + rsum n (fun j => b j * kap j x)).
  { apply functional_extensionality; intros x. rewrite Hu, Hv. unfold w, kap. rewrite !along_rsum.
    rewrite (rsum_ext n (fun j => b j * (dt * (k j x - l j x))) (fun j => dt * (b j * k j x - b j * l j x))) by (intros; ring).
    rewrite rsum_scal, rsum_minus. ring. }
  assert (Esq : forall c (s : nat -> R),
     ip (fun x => c * w x + rsum n (fun j => s j * kap j x)) (fun x => c * w x + rsum n (fun j => s j * kap j x))
     = c * c * ip w w + 2 * c * rsum n (fun j => s j * ip w (kap j))
       + rsum n (fun i => s i * rsum n (fun j => s j * ip (kap i) (kap j)))).
  { intros c s.
    rewrite (ip_plus_l ip Hip (fun x => c * w x) (fun x => rsum n (fun j => s j * kap j x))).
    rewrite !(ip_plus_r ip Hip (fun x => c * w x) (fun x => rsum n (fun j => s j * kap j x))).
    rewrite !(ip_scal_l ip Hip), !(ip_scal_r ip Hip).
    rewrite (ip_sym ip Hip (fun x => rsum n (fun j => s j * kap j x)) w).
    rewrite (ip_rsum_r ip Hip n s kap w), (ip_rsum_l ip Hip n s kap).
    rewrite (rsum_ext n (fun j => s j * ip (kap j) (fun x => rsum n (fun j0 => s j0 * kap j0 x)))
       (fun i => s i * rsum n (fun j => s j * ip (kap i) (kap j)))).
    2:{ intros i Hi. rewrite (ip_rsum_r ip Hip n s kap (kap i)). reflexivity. }
    ring. }
  constructor.
  - unfold distance2. fold w. rewrite Eu.
    replace (fun x => w x + rsum n (fun j => b j * kap j x)) with (fun x => 1 * w x + rsum n (fun j => b j * kap j x))
      by (apply functional_extensionality; intros; ring).
    rewrite (Esq 1 b). ring.
  - intros i j. apply (ip_sym ip Hip).
  - intros t. set (Y := fun x => rsum n (fun i => t i * y i x)).
    assert (H := Hd Y).
    assert (H' : ip Y (fun x => dt * L Y x) <= 0).
    { rewrite (ip_scal_r ip Hip). nra. }
    replace (fun x => dt * L Y x) with (fun x => rsum n (fun j => t j * kap j x)) in H'.
    + unfold Y in H'. rewrite (ip_rsum_l ip Hip n t y) in H'.
      rewrite (rsum_ext n (fun j => t j * ip (y j) (fun x => rsum n (fun j0 => t j0 * kap j0 x)))
        (fun i => t i * rsum n (fun j => t j * (ip w (kap j) + rsum n (fun l0 => a i l0 * ip (kap l0) (kap j)))))) in H'; [exact H'|].
      intros i Hi. f_equal. rewrite (ip_rsum_r ip Hip n t kap (y i)). apply rsum_ext. intros j Hj. f_equal.
      unfold y. rewrite (ip_plus_l ip Hip w (fun x => rsum n (fun j => a i j * kap j x))), (ip_rsum_l ip Hip n (a i) kap). reflexivity.
    + apply functional_extensionality; intros x. unfold Y. rewrite (operator_rsum L n t y x HL), <- rsum_scal.
      apply rsum_ext. intros j Hj. rewrite (Hkap j Hj x). ring.
  - intros c s. unfold distance2. fold w. rewrite <- Esq. apply Hip.
Qed.

Ltac spread H := cbn -[Rplus Rmult Rminus Rdiv Ropp IZR Rinv sqrt Rle gamma22 gamma23 gamma33 b1_33 b2_33] in H.


Lemma energy_BackwardEuler U P G U' : gram 1 (ta BackwardEulerTab) (tb BackwardEulerTab) U P G U' -> U' <= U.
Proof.
  intros [E Hs Ht Hq].
  assert (T0 := Ht (vect [1])).
  assert (Q0 := Hq 0 (vect [1])).
  spread E.
  spread T0.
  spread Q0.
  lra.
Qed.

Lemma energy_ImplicitMidpoint U P G U' : gram 1 (ta ImplicitMidpointTab) (tb ImplicitMidpointTab) U P G U' -> U' <= U.
Proof.
  intros [E Hs Ht Hq].
  assert (T0 := Ht (vect [1])).
  spread E.
  spread T0.
  lra.
Qed.

Lemma energy_CrankNicolson U P G U' : gram 2 (ta CrankNicolsonTab) (tb CrankNicolsonTab) U P G U' -> U' <= U.
Proof.
  intros [E Hs Ht Hq].
  assert (S10 := Hs 1%nat 0%nat).
  assert (T0 := Ht (vect [1; 1])).
  spread E.
  spread T0.
  lra.
Qed.

Lemma energy_ESDIRKTrapezoid U P G U' : gram 2 (ta ESDIRKTrapezoidTab) (tb ESDIRKTrapezoidTab) U P G U' -> U' <= U.
Proof.
  intros [E Hs Ht Hq].
  assert (S10 := Hs 1%nat 0%nat).
  assert (T0 := Ht (vect [1; 1])).
  spread E.
  spread T0.
  lra.
Qed.

Lemma energy_ESDIRKMidpoint U P G U' : gram 2 (ta ESDIRKMidpointTab) (tb ESDIRKMidpointTab) U P G U' -> U' <= U.
Proof.
  intros [E Hs Ht Hq].
  assert (S10 := Hs 1%nat 0%nat).
  assert (T0 := Ht (vect [0; 1])).
  spread E.
  spread T0.
  lra.
Qed.

Lemma energy_DIRKLSPUM2 U P G U' : gram 3 (ta DIRKLSPUM2Tab) (tb DIRKLSPUM2Tab) U P G U' -> U' <= U.
Proof.
  intros [E Hs Ht Hq].
  assert (S10 := Hs 1%nat 0%nat).
  assert (S20 := Hs 2%nat 0%nat).
  assert (S21 := Hs 2%nat 1%nat).
  assert (T0 := Ht (vect [1; 375061/2488297; 41410/2488297])).
  assert (T1 := Ht (vect [0; 1; (-4435640/22805443)])).
  assert (T2 := Ht (vect [0; 0; 1])).
  assert (Q0 := Hq 0 (vect [1; (-317984/181249); 136735/181249])).
  assert (Q1 := Hq 0 (vect [0; 1; (-1)])).
  spread E.
  spread T0.
  spread T1.
  spread T2.
  spread Q0.
  spread Q1.
  lra.
Qed.

Lemma energy_DIRKLPUM2 U P G U' : gram 3 (ta DIRKLPUM2Tab) (tb DIRKLPUM2Tab) U P G U' -> U' <= U.
Proof.
  intros [E Hs Ht Hq].
  assert (S10 := Hs 1%nat 0%nat).
  assert (S20 := Hs 2%nat 0%nat).
  assert (S21 := Hs 2%nat 1%nat).
  assert (T0 := Ht (vect [1; (-7319/22202); 1804/11101])).
  assert (T1 := Ht (vect [0; 1; (-2904/32425)])).
  assert (T2 := Ht (vect [0; 0; 1])).
  assert (Q0 := Hq 0 (vect [1; (-8017/3917); 4100/3917])).
  assert (Q1 := Hq 0 (vect [0; 1; (-1)])).
  spread E.
  spread T0.
  spread T1.
  spread T2.
  spread Q0.
  spread Q1.
  lra.
Qed.

Lemma energy_DIRK43 U P G U' : gram 4 (ta DIRK43Tab) (tb DIRK43Tab) U P G U' -> U' <= U.
Proof.
  intros [E Hs Ht Hq].
  assert (S10 := Hs 1%nat 0%nat).
  assert (S20 := Hs 2%nat 0%nat).
  assert (S21 := Hs 2%nat 1%nat).
  assert (S30 := Hs 3%nat 0%nat).
  assert (S31 := Hs 3%nat 1%nat).
  assert (S32 := Hs 3%nat 2%nat).
  assert (T0 := Ht (vect [1; 0; (-11/17); (-3/34)])).
  assert (T1 := Ht (vect [0; 1; (-37/48); (-7/24)])).
  assert (T2 := Ht (vect [0; 0; 1; (-86/599)])).
  assert (T3 := Ht (vect [0; 0; 0; 1])).
  assert (Q0 := Hq 0 (vect [1; 47/67; (-93/67); (-21/67)])).
  assert (Q1 := Hq 0 (vect [0; 1; (-6357/8644); (-2287/8644)])).
  assert (Q2 := Hq 0 (vect [0; 0; 1; (-1)])).
  spread E.
  spread T0.
  spread T1.
  spread T2.
  spread T3.
  spread Q0.
  spread Q1.
  spread Q2.
  lra.
Qed.

Lemma energy_DIRK33 U P G U' : gram 3 (ta DIRK33Tab) (tb DIRK33Tab) U P G U' -> U' <= (1 + / 10 ^ 20) * U.
Proof.
  intros [E Hs Ht Hq].
  assert (S10 := Hs 1%nat 0%nat).
  assert (S20 := Hs 2%nat 0%nat).
  assert (S21 := Hs 2%nat 1%nat).
  assert (T0 := Ht (vect [1; (-134787808498808850401900447497504412285260939013/130340949863540246047081876929377785061260939013); 53675649345442109794882294010094970418000000000/130340949863540246047081876929377785061260939013])).
  assert (T1 := Ht (vect [0; 1; (-1590673172771948486842413438594832585094504046355202044473411352229330066641856186239/3197766618410746886990466399250212331448099713638624882154540062336764619827712372478)])).
  assert (T2 := Ht (vect [0; 0; 1])).
  assert (Q0 := Hq (-499581031038470659936686388000000000000000000/215650107437997326089415056437764556687227480713879345913) (vect [1; (-327568998287495412325129528462390415775567887293879345913/215650107437997326089415056437764556687227480713879345913); 111918890849498086235714472024625859088340406580000000000/215650107437997326089415056437764556687227480713879345913])).
  assert (Q1 := Hq (-40911814475176497009019389709025391798845136350629452185722586101214251424512633061/169329728625825543129736461320726087375194327138356631630763944702587281042282631773236686648) (vect [0; 1; (-1)])).
  assert (Q2 := Hq 1 (vect [0; 0; 0])).
  spread E.
  spread T0.
  spread T1.
  spread T2.
  spread Q0.
  spread Q1.
  spread Q2.
  unfold b1_33, b2_33, gamma33 in E.
  unfold b1_33, b2_33, gamma33 in T0.
  unfold b1_33, b2_33, gamma33 in T1.
  unfold b1_33, b2_33, gamma33 in T2.
  lra.
Qed.


Lemma energy_DIRK23 U P G U' : gram 2 (ta DIRK23Tab) (tb DIRK23Tab) U P G U' -> U' <= U.
Proof.
  intros [E Hs Ht Hq]. assert (S10 := Hs 1%nat 0%nat).
  assert (T0 := Ht (vect [1; 0])). assert (T1 := Ht (vect [0; 1])). assert (Q0 := Hq 0 (vect [1; -1])).
  spread E. spread T0. spread T1. spread Q0.
  assert (Hg : 1/4 < gamma23) by (unfold gamma23; assert (H := sqrt_pos 3); lra).
  set (g := gamma23) in *.
  assert (Q1 : 0 <= (g - 1/4) * (G 0%nat 0%nat - G 0%nat 1%nat - G 1%nat 0%nat + G 1%nat 1%nat)).
  { apply Rmult_le_pos; [lra|]. lra. }
  nra.
Qed.

Lemma energy_DIRK22 U P G U' : gram 2 (ta DIRK22Tab) (tb DIRK22Tab) U P G U' -> U' <= U.
Proof.
  intros [E Hs Ht Hq]. assert (S10 := Hs 1%nat 0%nat).
  assert (T0 := Ht (vect [1; 1])). assert (T1 := Ht (vect [1; 0])). assert (T2 := Ht (vect [0; 1])).
  assert (Q0 := Hq 0 (vect [1; -1])).
  spread E. spread T0. spread T1. spread T2. spread Q0.
  destruct sqrt2_facts as (H2 & Ha & Hb).
  assert (Hsq : 1414/1000 < sqrt 2 < 1415/1000) by (split; nra).
  assert (Hg : gamma22 = 1 - sqrt 2 / 2) by (unfold gamma22; field).
  set (g := gamma22) in *. assert (Hr : g * g = 2 * g - 1/2) by (rewrite Hg; nra).
  assert (Hb1 : 2925/10000 < g < 293/1000) by lra. clear Hg Hsq H2 Ha Hb.
  set (p0 := P 0%nat) in *. set (p1 := P 1%nat) in *.
  rewrite S10 in *. set (g00 := G 0%nat 0%nat) in *. set (g01 := G 0%nat 1%nat) in *. set (g11 := G 1%nat 1%nat) in *.
  assert (K0 : 0 <= (1 - 3 * g) * - (2 * p0 + 2 * p1 + g00 + g01 + g * (g01 + g11))).
  { apply Rmult_le_pos; [lra|]. lra. }
  assert (K1 : 0 <= (5 * g - 1) * - (p0 + g * g00)) by (apply Rmult_le_pos; lra).
  assert (K2 : 0 <= (7 * g - 2) * - (p1 + (1 - g) * g01 + g * g11)) by (apply Rmult_le_pos; lra).
  assert (K3 : 0 <= (12 * g - 7/2) * (g00 - 2 * g01 + g11)) by (apply Rmult_le_pos; lra).
  assert (R00 : g * g * g00 = (2 * g - 1/2) * g00) by (rewrite Hr; reflexivity).
  assert (R01 : g * g * g01 = (2 * g - 1/2) * g01) by (rewrite Hr; reflexivity).
  assert (R11 : g * g * g11 = (2 * g - 1/2) * g11) by (rewrite Hr; reflexivity).
  nra.
Qed.

(** For linear problems with any forcing, no implicit scheme except DIRK33
    lets two solutions drift apart in a norm in which the problem does not
    produce energy, whatever the step. *)
Theorem C70_energy name T c : In (name, T, c) implicit_schemes -> name <> "DIRK33"%string ->
  forall (D Env : Type) (L : (D -> R) -> D -> R) (f : Env -> D -> R) dt (e : nat -> Env) ip u u' v v',
  linear_operator L -> inner_product ip -> dissipative ip L -> 0 <= dt ->
  implicit_step (ns T) (ta T) (tb T) (fun e y x => L y x + f e x) dt e u u' ->
  implicit_step (ns T) (ta T) (tb T) (fun e y x => L y x + f e x) dt e v v' ->
  distance2 ip u' v' <= distance2 ip u v.
Proof.
  intros Hin Hname D Env L f dt e ip u u' v v' HL Hip Hd Hdt H1 H2.
  cbn [In implicit_schemes] in Hin.
  repeat (destruct Hin as [Hin|Hin]; [apply (f_equal (fun p => fst (fst p))) in Hin as En; apply (f_equal (fun p => snd (fst p))) in Hin;
    cbn [fst snd] in Hin, En; subst T|]); [..|contradiction].
  6:{ subst name. contradiction Hname. reflexivity. }
  all: match type of H1 with implicit_step (ns ?T) ?a ?b _ _ _ _ _ =>
         destruct (gram_of_steps (ns T) a b L f dt e ip u u' v v') as (P & G & HG); try assumption end.
  - intros i j Hi Hij Hj; cbn in Hi, Hj; lia.
  - exact (energy_BackwardEuler _ P G _ HG).
  - intros i j Hi Hij Hj; cbn in Hi, Hj; lia.
  - exact (energy_ImplicitMidpoint _ P G _ HG).
  - intros i j Hi Hij Hj; cbn in Hi, Hj; cases2 i j 2%nat 2%nat Hi Hj; numbers.
  - exact (energy_CrankNicolson _ P G _ HG).
  - intros i j Hi Hij Hj; cbn in Hi, Hj; cases2 i j 2%nat 2%nat Hi Hj; numbers.
  - exact (energy_DIRK22 _ P G _ HG).
  - intros i j Hi Hij Hj; cbn in Hi, Hj; cases2 i j 2%nat 2%nat Hi Hj; numbers.
  - exact (energy_DIRK23 _ P G _ HG).
  - intros i j Hi Hij Hj; cbn in Hi, Hj; cases2 i j 4%nat 4%nat Hi Hj; numbers.
  - exact (energy_DIRK43 _ P G _ HG).
  - intros i j Hi Hij Hj; cbn in Hi, Hj; cases2 i j 3%nat 3%nat Hi Hj; numbers.
  - exact (energy_DIRKLSPUM2 _ P G _ HG).
  - intros i j Hi Hij Hj; cbn in Hi, Hj; cases2 i j 3%nat 3%nat Hi Hj; numbers.
  - exact (energy_DIRKLPUM2 _ P G _ HG).
  - intros i j Hi Hij Hj; cbn in Hi, Hj; cases2 i j 2%nat 2%nat Hi Hj; numbers.
  - exact (energy_ESDIRKMidpoint _ P G _ HG).
  - intros i j Hi Hij Hj; cbn in Hi, Hj; cases2 i j 2%nat 2%nat Hi Hj; numbers.
  - exact (energy_ESDIRKTrapezoid _ P G _ HG).
Qed.

(** DIRK33, whose coefficient is rounded to ten digits, may add at most one
    part in 10^20 to the squared distance per step *)
Theorem C70_dirk33_growth (D Env : Type) (L : (D -> R) -> D -> R) (f : Env -> D -> R) dt (e : nat -> Env) ip u u' v v' :
  linear_operator L -> inner_product ip -> dissipative ip L -> 0 <= dt ->
  implicit_step (ns DIRK33Tab) (ta DIRK33Tab) (tb DIRK33Tab) (fun e y x => L y x + f e x) dt e u u' ->
  implicit_step (ns DIRK33Tab) (ta DIRK33Tab) (tb DIRK33Tab) (fun e y x => L y x + f e x) dt e v v' ->
  distance2 ip u' v' <= (1 + / 10 ^ 20) * distance2 ip u v.
Proof.
  intros HL Hip Hd Hdt H1 H2.
  destruct (gram_of_steps 3 (ta DIRK33Tab) (tb DIRK33Tab) L f dt e ip u u' v v') as (P & G & HG); try assumption.
  - intros i j Hi Hij Hj; cases2 i j 3%nat 3%nat Hi Hj; numbers.
  - exact (energy_DIRK33 _ P G _ HG).
Qed.

Print Assumptions C70_energy.
Print Assumptions C70_dirk33_growth.
