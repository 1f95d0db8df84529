(** C87, where the penalty is large enough: columns of layers with functions linear in
    each layer (the default order), any number of layers, any thicknesses and any
    viscosity that is constant in each layer. *)
From Coq Require Import Reals List Bool Arith Lia Lra FunctionalExtensionality.
From Verif Require Import Forms_Model Forms_Proofs RK_Model RK_Spec RK_Proofs P_RungeKutta TimeInt_Model P_Galerkin
  Forms3d_Model Forms3d_Spec Galerkin3d_Model P_Galerkin3d Mom3d_Model VMix_Model VMix_Spec P_VMix P_VMix_Momentum.
Import ListNotations.
Open Scope R_scope.

Section Column.
(** [layers] layers, counted from the bottom, of thickness [h]; two quadrature points
    in each, [off * h] above and below the middle. *)
Variable layers : nat.
Variable h : nat -> R.
Variable off : R.

Definition column : mesh3 (nat * bool) nat bool :=
  mk_mesh3 (flat_map (fun k => [(k, true); (k, false)]) (seq 0 layers)) (fun p => h (fst p) / 2)
           (seq 0 (layers - 1)) [] (fun _ => 1) (fun _ => V3 0 0 1)
           [true] [false] [] (fun _ => 1) (fun top => V3 0 0 (if top : bool then 1 else -1)) (fun _ => 0%nat).

Notation field3 := (sfield3 (nat * bool) nat bool).

(** the layer on a side of a facet; '+' is below *)
Definition layer_of (f : nat) (side : bool) : nat := if side then f else S f.

(** linear in each layer *)
Definition layered (c : field3) : Prop :=
  exists s : nat -> R, (forall k b, c2 (a_gv c (k, b)) = s k) /\ (forall f side, c2 (a_gf c f side) = s (layer_of f side)).
(** constant in each layer *)
Definition in_layers (m : nat -> R) : field3 :=
  mk_s3 (fun p => m (fst p)) (fun _ => zero3) (fun f side => m (layer_of f side)) (fun _ _ => zero3)
        (fun top => m (if top : bool then (layers - 1)%nat else 0%nat)) (fun _ => zero3).

(** [cp * FacetArea / CellVolume] with cp = (1 + 1)**2, momentum_eq.py:425-429 *)
Definition sigma1 (f : nat) (side : bool) : R := 4 / h (layer_of f side).
Definition pen1 (sipg : R) (f : nat) : R := larger (sipg * sigma1 f true) (sipg * sigma1 f false).

Lemma int_cells : forall n g, integral (flat_map (fun k => [(k, true); (k, false)]) (seq 0 n)) (fun p => h (fst p) / 2) g
  = rsum n (fun k => h k / 2 * (g (k, true) + g (k, false))).
Proof.
  assert (A : forall (l m : list (nat * bool)) w g, integral (l ++ m) w g = integral l w g + integral m w g).
  { induction l as [|x l IH]; intros m w g; cbn [app]; rewrite ?integral_nil, ?integral_cons; [ring|]. rewrite IH. ring. }
  induction n as [|n IH]; intro g; [reflexivity|].
  rewrite seq_S, flat_map_app, A, IH. cbn [rsum flat_map app plus]. rewrite !integral_cons, integral_nil. cbn [fst]. ring.
Qed.
Lemma int_facets : forall n g, integral (seq 0 n) (fun _ => 1) g = rsum n g.
Proof.
  assert (A : forall (l m : list nat) w g, integral (l ++ m) w g = integral l w g + integral m w g).
  { induction l as [|x l IH]; intros m w g; cbn [app]; rewrite ?integral_nil, ?integral_cons; [ring|]. rewrite IH. ring. }
  induction n as [|n IH]; intro g; [reflexivity|].
  rewrite seq_S, A, IH. cbn [rsum plus]. rewrite integral_cons, integral_nil. ring.
Qed.

Lemma rsum_le : forall n f g, (forall i, (i < n)%nat -> f i <= g i) -> rsum n f <= rsum n g.
Proof.
  induction n as [|n IH]; intros f g H; cbn [rsum]; [lra|].
  pose proof (IH f g ltac:(intros; apply H; lia)). pose proof (H n ltac:(lia)). lra.
Qed.

Lemma shared : forall a n, (forall k, 0 <= a k) -> rsum n (fun f => 1/2 * (a f + a (S f))) <= rsum (S n) a - 1/2 * a n.
Proof.
  intros a n Ha. induction n as [|n IH]; cbn [rsum] in *.
  - pose proof (Ha 0%nat). lra.
  - pose proof (Ha n). lra.
Qed.

(** Young's inequality at a facet *)
Lemma facet_bound : forall P m1 m2 s1 s2 j, 0 < P -> 0 < m1 -> 0 < m2 ->
  - (1 / (2 * P) * (m1 * (s1 * s1) + m2 * (s2 * s2)))
  <= P * (1/2 * (m1 + m2)) * (j * j) - 2 * (1/2 * (m1 * s1 + m2 * s2) * j).
Proof.
  intros P m1 m2 s1 s2 j HP H1 H2.
  assert (A : P * (1/2 * (m1 + m2)) * (j * j) - 2 * (1/2 * (m1 * s1 + m2 * s2) * j) + 1 / (2 * P) * (m1 * (s1 * s1) + m2 * (s2 * s2))
    = 1 / (2 * P) * (m1 * ((P * j - s1) * (P * j - s1)) + m2 * ((P * j - s2) * (P * j - s2)))).
  { field. lra. }
  assert (B : 0 <= 1 / (2 * P) * (m1 * ((P * j - s1) * (P * j - s1)) + m2 * ((P * j - s2) * (P * j - s2)))).
  { apply Rmult_le_pos. { unfold Rdiv. rewrite Rmult_1_l. left. apply Rinv_0_lt_compat. lra. }
    pose proof (Rle_0_sqr (P * j - s1)) as Q1. pose proof (Rle_0_sqr (P * j - s2)) as Q2. unfold Rsqr in *.
    apply Rplus_le_le_0_compat; apply Rmult_le_pos; lra. }
  lra.
Qed.

Lemma pen1_ge : forall sipg f side, pen1 sipg f >= sipg * sigma1 f side.
Proof. intros sipg f side. unfold pen1, larger. destruct (Rgt_dec _ _); destruct side; lra. Qed.

(** With linear functions and viscosity constant in each layer, a penalty factor of at
    least 1/4 is enough (the default is 1): mixing never adds variance, however the
    viscosity and the thickness change from layer to layer. *)
Theorem C87_column_mixes : forall sipg m c dg,
  (forall k, 0 < h k) -> (forall k, 0 < m k) -> 1/4 <= sipg -> layered c ->
  0 <= mixing_loss column dg (pen1 sipg) (in_layers m) c.
Proof.
  intros sipg m c dg Hh Hm Hs (s & S1 & S2). unfold mixing_loss, dx3. cbn [column g_cells g_wv].
  rewrite int_cells.
  set (a := fun k => h k * (m k * (s k * s k))).
  assert (Ha : forall k, 0 <= a k).
  { intro k. unfold a. pose proof (Rle_0_sqr (s k)) as Q. unfold Rsqr in Q. apply Rmult_le_pos; [left; apply Hh|]. apply Rmult_le_pos; [left; apply Hm|assumption]. }
  assert (EA : rsum layers (fun k => h k / 2 * (a_v (in_layers m) (k, true) * (c2 (a_gv c (k, true)) * c2 (a_gv c (k, true)))
     + a_v (in_layers m) (k, false) * (c2 (a_gv c (k, false)) * c2 (a_gv c (k, false))))) = rsum layers a).
  { apply rsum_ext. intros k _. rewrite !S1. cbn [in_layers a_v fst]. unfold a. field. }
  rewrite EA. clear EA.
  assert (PA : 0 <= rsum layers a).
  { assert (Z : rsum layers (fun _ => 0) = 0) by (apply rsum_zero; reflexivity). rewrite <- Z. apply rsum_le. intros; apply Ha. }
  destruct dg; [|lra]. unfold dS_h. cbn [column g_hor g_wf]. rewrite int_facets.
  assert (FB : - rsum (layers - 1) (fun f => 1/2 * (a f + a (S f)))
     <= rsum (layers - 1) (fun f =>
         let j := (a_f c f true - a_f c f false) * c2 (g_nf column f) in
         let q := 1/2 * (a_f (in_layers m) f true * c2 (a_gf c f true) + a_f (in_layers m) f false * c2 (a_gf c f false)) in
         pen1 sipg f * (1/2 * (a_f (in_layers m) f true + a_f (in_layers m) f false)) * (j * j) - 2 * (q * j))).
  { replace (- rsum (layers - 1) (fun f => 1/2 * (a f + a (S f)))) with (rsum (layers - 1) (fun f => - (1/2 * (a f + a (S f))))).
    2:{ replace (fun f => - (1/2 * (a f + a (S f)))) with (fun f => (-1) * (1/2 * (a f + a (S f)))) by (apply functional_extensionality; intro; ring).
        rewrite rsum_scal. ring. }
    apply rsum_le. intros f _. cbv zeta. rewrite !S2. cbn [in_layers a_f layer_of column g_nf c2].
    set (P := pen1 sipg f). set (j := (a_f c f true - a_f c f false) * 1).
    assert (G1 : P >= / h f).
    { pose proof (pen1_ge sipg f true) as Q. unfold sigma1, layer_of in Q. fold P in Q. pose proof (Rinv_0_lt_compat _ (Hh f)).
      unfold Rdiv in Q. nra. }
    assert (G2 : P >= / h (S f)).
    { pose proof (pen1_ge sipg f false) as Q. unfold sigma1, layer_of in Q. fold P in Q. pose proof (Rinv_0_lt_compat _ (Hh (S f))).
      unfold Rdiv in Q. nra. }
    assert (P0 : 0 < P) by (pose proof (Rinv_0_lt_compat _ (Hh f)); lra).
    eapply Rle_trans; [|apply facet_bound; [exact P0|apply Hm|apply Hm]].
    assert (I1 : / P <= h f).
    { rewrite <- (Rinv_inv (h f)). apply Rinv_le_contravar; [apply Rinv_0_lt_compat, Hh|lra]. }
    assert (I2 : / P <= h (S f)).
    { rewrite <- (Rinv_inv (h (S f))). apply Rinv_le_contravar; [apply Rinv_0_lt_compat, Hh|lra]. }
    assert (J : forall k, / P <= h k -> / P * (m k * (s k * s k)) <= a k).
    { intros k Hk. unfold a. apply Rmult_le_compat_r; [|exact Hk]. pose proof (Rle_0_sqr (s k)) as Q. unfold Rsqr in Q.
      apply Rmult_le_pos; [left; apply Hm|assumption]. }
    pose proof (J f I1) as J1. pose proof (J (S f) I2) as J2.
    replace (1 / (2 * P)) with (1/2 * / P) by (field; lra). lra. }
  destruct (Nat.eq_dec layers 0) as [Z|Z].
  - rewrite Z in *. cbn [Nat.sub rsum] in *. lra.
  - pose proof (shared a (layers - 1) Ha) as Q. replace (S (layers - 1)) with layers in Q by lia.
    pose proof (Ha (layers - 1)%nat). cbv zeta in FB |- *. lra.
Qed.

(* ------------------------------------------------------------------ *)
(** * The space *)

Lemma layered_zero : layered (const3 0).
Proof. exists (fun _ => 0). split; intros; reflexivity. Qed.
Lemma layered_add : forall p k q, layered p -> layered q -> layered (add_s p (scale3 k q)).
Proof.
  intros p k q (s & A & B) (r & C & D). exists (fun l => s l + k * r l).
  split; intros; cbn; rewrite ?A, ?B, ?C, ?D; reflexivity.
Qed.
Lemma layered_comb : forall n c phi, (forall i, layered (phi i)) -> layered (comb3 n c phi).
Proof.
  induction n as [|n IH]; intros c phi H; [apply layered_zero|]. cbn [comb3]. apply layered_add; [apply IH; exact H|apply H].
Qed.

(** Two basis functions in each layer: 1, and the height above the middle. *)
Definition dg1 (i : nat) : field3 :=
  let k := Nat.div2 i in
  let on (l : nat) (x : R) := if Nat.eqb l k then x else 0 in
  if Nat.even i then
    mk_s3 (fun p => on (fst p) 1) (fun _ => zero3) (fun f side => on (layer_of f side) 1) (fun _ _ => zero3)
          (fun top => on (if top : bool then (layers - 1)%nat else 0%nat) 1) (fun _ => zero3)
  else
    mk_s3 (fun p : nat * bool => on (fst p) ((if snd p then off else - off) * h k)) (fun p : nat * bool => V3 0 0 (on (fst p) 1))
          (fun f side => on (layer_of f side) ((if side then 1/2 else - (1/2)) * h k)) (fun f side => V3 0 0 (on (layer_of f side) 1))
          (fun top => on (if top : bool then (layers - 1)%nat else 0%nat) ((if top : bool then 1/2 else - (1/2)) * h k))
          (fun top => V3 0 0 (on (if top : bool then (layers - 1)%nat else 0%nat) 1)).

Lemma dg1_layered : forall i, layered (dg1 i).
Proof.
  intro i. unfold dg1. destruct (Nat.even i).
  - exists (fun _ => 0). split; intros; reflexivity.
  - exists (fun l => if Nat.eqb l (Nat.div2 i) then 1 else 0). split; intros; reflexivity.
Qed.

Lemma rsum_pair : forall n k f, (k < n)%nat -> (forall i, (i < 2 * n)%nat -> Nat.div2 i <> k -> f i = 0) ->
  rsum (2 * n) f = f (2 * k)%nat + f (2 * k + 1)%nat.
Proof.
  intros n k f Hk Hf. replace (2 * n)%nat with (2 * k + (2 + (2 * n - 2 * k - 2)))%nat by lia.
  rewrite rsum_split, rsum_split. rewrite rsum_zero.
  - rewrite (rsum_zero (2 * n - 2 * k - 2)).
    + cbn [rsum]. replace (2 * k + 0)%nat with (2 * k)%nat by lia. ring.
    + intros i Hi. apply Hf; [lia|]. intro D. pose proof (Nat.div2_odd (2 * k + (2 + i))) as Q. rewrite D in Q.
      destruct (Nat.odd (2 * k + (2 + i))); cbn [Nat.b2n] in Q; lia.
  - intros i Hi. apply Hf; [lia|]. intro D. pose proof (Nat.div2_odd i) as Q. rewrite D in Q.
    destruct (Nat.odd i); cbn [Nat.b2n] in Q; lia.
Qed.

Lemma dg1_value : forall c k b, (k < layers)%nat ->
  a_v (comb3 (2 * layers) c dg1) (k, b) = c (2 * k)%nat + c (2 * k + 1)%nat * ((if b : bool then off else - off) * h k).
Proof.
  intros c k b Hk. rewrite comb3_v. rewrite (rsum_pair layers k).
  - assert (E0 : Nat.div2 (2 * k) = k) by apply Nat.div2_double.
    assert (E1 : Nat.div2 (2 * k + 1) = k) by (rewrite Nat.add_1_r; apply Nat.div2_succ_double).
    assert (F0 : Nat.even (2 * k) = true) by (rewrite Nat.even_mul; reflexivity).
    assert (F1 : Nat.even (2 * k + 1) = false) by (rewrite Nat.add_1_r, Nat.even_succ, <- Nat.negb_even, F0; reflexivity).
    unfold dg1. rewrite F0, F1, E0, E1. cbn [a_v fst snd]. rewrite Nat.eqb_refl. ring.
  - exact Hk.
  - intros i _ Hi. unfold dg1. assert (N : Nat.eqb k (Nat.div2 i) = false) by (apply Nat.eqb_neq; congruence).
    destruct (Nat.even i); cbn [a_v fst]; rewrite N; ring.
Qed.

Lemma rsum_zero_all : forall n f, (forall i, (i < n)%nat -> 0 <= f i) -> rsum n f = 0 -> forall i, (i < n)%nat -> f i = 0.
Proof.
  induction n as [|n IH]; intros f H Z i Hi; [lia|]. cbn [rsum] in Z.
  assert (P : 0 <= rsum n f).
  { assert (Q : rsum n (fun _ => 0) = 0) by (apply rsum_zero; reflexivity). rewrite <- Q. apply rsum_le. intros; apply H; lia. }
  pose proof (H n ltac:(lia)). destruct (Nat.eq_dec i n) as [->|Ne]; [lra|].
  apply IH; [intros; apply H; lia|lra|lia].
Qed.

(** The basis functions are independent. *)
Lemma dg1_independent : (forall k, 0 < h k) -> 0 < off -> forall c,
  variance3 column (comb3 (2 * layers) c dg1) = 0 -> forall i, (i < 2 * layers)%nat -> c i = 0.
Proof.
  intros Hh Ho c Z i Hi. unfold variance3, dx3 in Z. cbn [column g_cells g_wv] in Z. rewrite int_cells in Z.
  assert (P : forall k, (k < layers)%nat -> c (2 * k)%nat = 0 /\ c (2 * k + 1)%nat = 0).
  { intros k Hk.
    assert (Q : h k / 2 * (a_v (comb3 (2 * layers) c dg1) (k, true) * a_v (comb3 (2 * layers) c dg1) (k, true)
               + a_v (comb3 (2 * layers) c dg1) (k, false) * a_v (comb3 (2 * layers) c dg1) (k, false)) = 0).
    { refine (rsum_zero_all layers _ _ Z k Hk). intros k0 _. cbv beta. pose proof (Hh k0) as H0.
      match goal with |- 0 <= _ * (?x * ?x + ?y * ?y) => pose proof (Rle_0_sqr x); pose proof (Rle_0_sqr y); unfold Rsqr in *; apply Rmult_le_pos; lra end. }
    rewrite !dg1_value in Q by exact Hk. pose proof (Hh k) as H0.
    set (x := c (2 * k)%nat) in *. set (y := c (2 * k + 1)%nat) in *.
    assert (Q2 : x * x + (y * (off * h k)) * (y * (off * h k)) = 0).
    { replace (h k / 2 * ((x + y * (off * h k)) * (x + y * (off * h k)) + (x + y * (- off * h k)) * (x + y * (- off * h k))))
        with (h k * (x * x + (y * (off * h k)) * (y * (off * h k)))) in Q by field.
      apply Rmult_integral in Q. destruct Q as [Q|Q]; [lra|exact Q]. }
    pose proof (Rle_0_sqr x) as X. pose proof (Rle_0_sqr (y * (off * h k))) as Y. unfold Rsqr in *.
    assert (X0 : x * x = 0) by lra. assert (Y0 : y * (off * h k) * (y * (off * h k)) = 0) by lra.
    apply Rmult_integral in X0. apply Rmult_integral in Y0. split; [tauto|].
    assert (W : 0 < off * h k) by (apply Rmult_lt_0_compat; assumption).
    destruct Y0 as [Y0|Y0]; apply Rmult_integral in Y0; destruct Y0 as [Y0|Y0]; lra. }
  destruct (P (Nat.div2 i)) as (P0 & P1).
  { pose proof (Nat.div2_odd i). destruct (Nat.odd i); cbn [Nat.b2n] in *; lia. }
  pose proof (Nat.div2_odd i) as D. destruct (Nat.odd i); cbn [Nat.b2n] in D.
  - rewrite D. exact P1.
  - rewrite D, Nat.add_0_r. exact P0.
Qed.

Lemma column_positive : (forall k, 0 < h k) -> positive3 column.
Proof.
  intro Hh. split; [|repeat split; cbn; intros; lra]. intros p _. cbn [column g_wv]. pose proof (Hh (fst p)). lra.
Qed.

(* ------------------------------------------------------------------ *)
(** * The implicit steps in a column *)

Notation geo1 := (fun _ : unit => column).
Notation space1 := (fun _ : unit => dg1).

(** x and y velocities, each linear in each layer *)
Definition dg1v (i : nat) : vfield3 (nat * bool) nat bool :=
  let q := dg1 (Nat.div2 i) in
  if Nat.even i then mk_vf3 q (const3 0) (const3 0) else mk_vf3 (const3 0) q (const3 0).

Theorem C87_column_tracer : forall (K : tenv3 (nat * bool) nat bool) m,
  (forall k, 0 < h k) -> (forall k, 0 < m k) -> 0 < off -> 1/4 <= k_sipgv K -> k_sigv K = sigma1 ->
  positive3 (geo1 tt) /\ independent3 geo1 (2 * layers) space1 tt /\ mixes geo1 (2 * layers) space1 tt K (Some (in_layers m)).
Proof.
  intros K m Hh Hm Ho Hs Hsig. split; [now apply column_positive|]. split.
  - intros c. unfold tracer3_of. now apply dg1_independent.
  - intro c. unfold tracer_mixing, pen3. rewrite Hsig. apply C87_column_mixes; try assumption.
    unfold tracer3_of. apply layered_comb, dg1_layered.
Qed.

Lemma comb3_evens : forall n c (q : nat -> field3) (z : field3), z = const3 0 ->
  comb3 (2 * n) c (fun i => if Nat.even i then q (Nat.div2 i) else z) = comb3 n (fun j => c (2 * j)%nat) q
  /\ comb3 (2 * n) c (fun i => if Nat.even i then z else q (Nat.div2 i)) = comb3 n (fun j => c (2 * j + 1)%nat) q.
Proof.
  intros n c q z ->.
  assert (Z : forall p k, add_s p (scale3 k (const3 (V:=nat*bool) (F:=nat) (E:=bool) 0)) = p).
  { intros p k. apply s3_eq; intros; cbn; unfold add3, scal3, zero3; cbn [c0 c1 c2]; try ring;
      [destruct (a_gv p x)|destruct (a_gf p f s)|destruct (a_ge p e)]; cbn; f_equal; ring. }
  induction n as [|n (I1 & I2)]; [split; reflexivity|].
  replace (2 * S n)%nat with (S (S (2 * n))) by lia. cbn [comb3]. rewrite I1, I2.
  assert (E0 : Nat.even (2 * n) = true) by (rewrite Nat.even_mul; reflexivity).
  assert (E1 : Nat.even (S (2 * n)) = false) by (rewrite Nat.even_succ, <- Nat.negb_even, E0; reflexivity).
  rewrite E0, E1, !Z, Nat.div2_double, Nat.div2_succ_double. replace (2 * n + 1)%nat with (S (2 * n)) by lia. split; reflexivity.
Qed.

Theorem C87_column_momentum : forall (K : menv3 (nat * bool) nat bool) m,
  (forall k, 0 < h k) -> (forall k, 0 < m k) -> 0 < off -> 1/4 <= m_sipgv K -> m_sigv K = sigma1 ->
  let space := fun _ : unit => dg1v in
  positive3 (geo1 tt) /\ independent_v geo1 (2 * (2 * layers)) space tt /\ viscous geo1 (2 * (2 * layers)) space tt K (Some (in_layers m)).
Proof.
  intros K m Hh Hm Ho Hs Hsig space. split; [now apply column_positive|].
  set (n := (2 * layers)%nat).
  assert (Ex : forall c, w_x (velocity_of (2 * n) space tt c) = comb3 n (fun j => c (2 * j)%nat) dg1).
  { intro c. unfold velocity_of, vcomb3, space. cbn [w_x]. rewrite <- (proj1 (comb3_evens n c dg1 (const3 0) eq_refl)).
    f_equal. apply functional_extensionality. intro i. unfold dg1v. destruct (Nat.even i); reflexivity. }
  assert (Ey : forall c, w_y (velocity_of (2 * n) space tt c) = comb3 n (fun j => c (2 * j + 1)%nat) dg1).
  { intro c. unfold velocity_of, vcomb3, space. cbn [w_y]. rewrite <- (proj2 (comb3_evens n c dg1 (const3 0) eq_refl)).
    f_equal. apply functional_extensionality. intro i. unfold dg1v. destruct (Nat.even i); reflexivity. }
  split.
  - intros c Z.
    assert (S : energy3 column (velocity_of (2 * n) space tt c)
      = variance3 column (w_x (velocity_of (2 * n) space tt c)) + variance3 column (w_y (velocity_of (2 * n) space tt c))
        + variance3 column (w_z (velocity_of (2 * n) space tt c))).
    { unfold energy3, variance3, dx3. rewrite <- !integral_plus. reflexivity. }
    assert (V0 : forall q, 0 <= variance3 column q) by (intro q; apply (variance_pos geo1 tt (column_positive Hh))).
    rewrite S in Z. pose proof (V0 (w_x (velocity_of (2 * n) space tt c))). pose proof (V0 (w_y (velocity_of (2 * n) space tt c))).
    pose proof (V0 (w_z (velocity_of (2 * n) space tt c))).
    assert (Zx : variance3 column (w_x (velocity_of (2 * n) space tt c)) = 0) by lra.
    assert (Zy : variance3 column (w_y (velocity_of (2 * n) space tt c)) = 0) by lra.
    rewrite Ex in Zx. rewrite Ey in Zy.
    intros i Hi. pose proof (Nat.div2_odd i) as D.
    assert (Hd : (Nat.div2 i < n)%nat) by (destruct (Nat.odd i); cbn [Nat.b2n] in D; lia).
    pose proof (dg1_independent Hh Ho _ Zx (Nat.div2 i) Hd) as Q0. pose proof (dg1_independent Hh Ho _ Zy (Nat.div2 i) Hd) as Q1.
    cbv beta in Q0, Q1. destruct (Nat.odd i); cbn [Nat.b2n] in D; rewrite D; [exact Q1|rewrite Nat.add_0_r; exact Q0].
  - intro c. unfold viscosity_takes, viscous_loss, mpen. rewrite Hsig.
    assert (L : forall q, layered q -> 0 <= mixing_loss column (m_vdg K) (pen1 (m_sipgv K)) (in_layers m) q)
      by (intros q Hq; apply C87_column_mixes; assumption).
    assert (A1 : layered (w_x (velocity_of (2 * n) space tt c))) by (rewrite Ex; apply layered_comb, dg1_layered).
    assert (A2 : layered (w_y (velocity_of (2 * n) space tt c))) by (rewrite Ey; apply layered_comb, dg1_layered).
    assert (A3 : layered (w_z (velocity_of (2 * n) space tt c))).
    { unfold velocity_of, vcomb3, space. cbn [w_z]. apply layered_comb. intro i. unfold dg1v. destruct (Nat.even i); apply layered_zero. }
    pose proof (L _ A1). pose proof (L _ A2). pose proof (L _ A3). unfold pen1 in *. lra.
Qed.
End Column.

(** Without a penalty mixing can add variance: two layers of thickness 1, both with
    slope 1, and a step of 2 between them. *)
Theorem C87_no_penalty_needed_refuted :
  exists c, layered c /\ mixing_loss (column 2 (fun _ => 1)) true (pen1 (fun _ => 1) 0) (in_layers 2 (fun _ => 1)) c < 0.
Proof.
  exists (mk_s3 (fun _ => 0) (fun _ => V3 0 0 1) (fun _ side => if side : bool then 2 else 0) (fun _ _ => V3 0 0 1) (fun _ => 0) (fun _ => zero3)).
  split. { exists (fun _ => 1). split; intros; reflexivity. }
  unfold mixing_loss, dx3, dS_h, column, in_layers, pen1, larger, sigma1. cbn -[Rplus Rmult Rminus Rdiv Ropp Rinv IZR Rgt_dec].
  destruct (Rgt_dec _ _); lra.
Qed.

(** A column of three layers, a tracer mixed with a viscosity a thousand times larger
    at the top than at the bottom: all conditions hold. *)
Example C87_column_example :
  let h k := match k with 0%nat => 10 | 1%nat => 2 | _ => 1/2 end in
  let m k := match k with 0%nat => 1/1000 | 1%nat => 1/10 | _ => 1 end in
  let K := mk_tenv3 true true false None None None None None None None (fun _ _ => 0) (sigma1 h) 1 1 None (fun _ => None) 0 in
  positive3 (column 3 h) /\ independent3 (fun _ : unit => column 3 h) 6 (fun _ => dg1 3 h (1/4)) tt
  /\ mixes (fun _ : unit => column 3 h) 6 (fun _ => dg1 3 h (1/4)) tt K (Some (in_layers 3 m)).
Proof.
  intros h m K. apply (C87_column_tracer 3 h (1/4) K m); try (cbn; lra); try reflexivity;
    intros [|[|k]]; cbn; lra.
Qed.

Print Assumptions C87_column_mixes.
Print Assumptions C87_column_tracer.
Print Assumptions C87_column_momentum.
Print Assumptions C87_no_penalty_needed_refuted.
