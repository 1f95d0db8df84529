(** C68: cell widths, the wetting and drying parameter, anisotropic cell
    sizes, the beta plane, streamline upwinding, subdomain projection. *)
From Coq Require Import Reals List Bool Lra Lia Psatz.
From Verif Require Import Geometry_Model P_Geometry.
Import ListNotations.
Open Scope R_scope.

Definition max3 (x y z : R) : R := Rmax x (Rmax y z).

(* ------------------------------------------------------------------ *)
(** * Widths *)

Ltac rmm := unfold max3, min3, Rmax, Rmin in *; repeat destruct (Rle_dec _ _); try lra.

(** The width is that of the bounding box. *)
Theorem C68_cell_width x :
  cell_width x = max3 (x 0%nat) (x 1%nat) (x 2%nat) - min3 (x 0%nat) (x 1%nat) (x 2%nat).
Proof.
  unfold cell_width. cbn [fold_left Nat.modulo Nat.divmod Nat.add fst snd Nat.sub].
  assert (F : finfo_min < 0).
  { unfold finfo_min. assert (X : 0 < 2 ^ 1023) by (apply pow_lt; lra). lra. }
  assert (X : Rmax finfo_min (Rabs (x 0%nat - x 1%nat)) = Rabs (x 0%nat - x 1%nat)).
  { apply Rmax_right. assert (Z := Rabs_pos (x 0%nat - x 1%nat)). lra. }
  rewrite X. generalize (x 0%nat) (x 1%nat) (x 2%nat). intros a b c.
  unfold Rabs. destruct (Rcase_abs (a - b)), (Rcase_abs (b - c)), (Rcase_abs (c - a)); rmm.
Qed.

(** So it bounds the distance of any two points of the cell in that
    direction. *)
Definition inside_cell (x : nat -> R) (p : R) : Prop :=
  exists l0 l1 l2, 0 <= l0 /\ 0 <= l1 /\ 0 <= l2 /\ l0 + l1 + l2 = 1 /\
    p = l0 * x 0%nat + l1 * x 1%nat + l2 * x 2%nat.

Lemma inside_box x p : inside_cell x p ->
  min3 (x 0%nat) (x 1%nat) (x 2%nat) <= p <= max3 (x 0%nat) (x 1%nat) (x 2%nat).
Proof.
  intros (l0 & l1 & l2 & A & B & C & S & ->).
  set (m := min3 _ _ _). set (M := max3 _ _ _).
  assert (m <= x 0%nat /\ m <= x 1%nat /\ m <= x 2%nat) as (m0 & m1 & m2)
    by (unfold m; repeat split; rmm).
  assert (x 0%nat <= M /\ x 1%nat <= M /\ x 2%nat <= M) as (M0 & M1 & M2)
    by (unfold M; repeat split; rmm).
  split.
  - replace m with (l0 * m + l1 * m + l2 * m) by (rewrite <- !Rmult_plus_distr_r, S; ring).
    repeat apply Rplus_le_compat; apply Rmult_le_compat_l; assumption.
  - replace M with (l0 * M + l1 * M + l2 * M) by (rewrite <- !Rmult_plus_distr_r, S; ring).
    repeat apply Rplus_le_compat; apply Rmult_le_compat_l; assumption.
Qed.

Theorem C68_width_bounds x p q : inside_cell x p -> inside_cell x q ->
  Rabs (p - q) <= cell_width x.
Proof.
  intros P Q. apply inside_box in P, Q. rewrite C68_cell_width.
  unfold Rabs. destruct (Rcase_abs _); lra.
Qed.

(** For other element shapes the widths are refused (NotImplementedError), see
    utility.py:721-725. *)

(* ------------------------------------------------------------------ *)
(** * Wetting and drying parameter *)

(** The bathymetry of a cell: linear with the given gradient. *)
Definition bath (c : cell) (b0 : R) (p : pt) : R :=
  b0 + fst (c_grad c) * fst p + snd (c_grad c) * snd p.

Definition in_cell (xy : nat -> pt) (c : cell) (p : pt) : Prop :=
  exists l0 l1 l2, 0 <= l0 /\ 0 <= l1 /\ 0 <= l2 /\ l0 + l1 + l2 = 1 /\
    fst p = l0 * fst (xy (c_nodes c 0%nat)) + l1 * fst (xy (c_nodes c 1%nat)) + l2 * fst (xy (c_nodes c 2%nat)) /\
    snd p = l0 * snd (xy (c_nodes c 0%nat)) + l1 * snd (xy (c_nodes c 1%nat)) + l2 * snd (xy (c_nodes c 2%nat)).

(** Without an upper limit, the value of a cell is at least the variation of
    the bathymetry in the cell. *)
Theorem C68_alpha_covers_bathymetry xy amin c b0 p q :
  in_cell xy c p -> in_cell xy c q ->
  Rabs (bath c b0 p - bath c b0 q) <= alpha_cell xy amin None c.
Proof.
  intros P Q.
  assert (W1 : Rabs (fst p - fst q) <= cell_width (fun i => fst (xy (c_nodes c i)))).
  { apply C68_width_bounds.
    - destruct P as (l0 & l1 & l2 & A & B & C & S & E & _). now exists l0, l1, l2.
    - destruct Q as (l0 & l1 & l2 & A & B & C & S & E & _). now exists l0, l1, l2. }
  assert (W2 : Rabs (snd p - snd q) <= cell_width (fun i => snd (xy (c_nodes c i)))).
  { apply C68_width_bounds.
    - destruct P as (l0 & l1 & l2 & A & B & C & S & _ & E). now exists l0, l1, l2.
    - destruct Q as (l0 & l1 & l2 & A & B & C & S & _ & E). now exists l0, l1, l2. }
  unfold alpha_cell.
  set (w1 := cell_width (fun i => fst (xy (c_nodes c i)))) in *.
  set (w2 := cell_width (fun i => snd (xy (c_nodes c i)))) in *.
  assert (X : Rabs (bath c b0 p - bath c b0 q)
              <= w1 * Rabs (fst (c_grad c)) + w2 * Rabs (snd (c_grad c))).
  { unfold bath.
    replace (b0 + fst (c_grad c) * fst p + snd (c_grad c) * snd p
             - (b0 + fst (c_grad c) * fst q + snd (c_grad c) * snd q))
      with ((fst p - fst q) * fst (c_grad c) + (snd p - snd q) * snd (c_grad c)) by ring.
    eapply Rle_trans; [apply Rabs_triang|]. rewrite !Rabs_mult.
    apply Rplus_le_compat; apply Rmult_le_compat_r; try apply Rabs_pos; assumption. }
  destruct amin as [m|]; [|exact X].
  unfold max_value, Rltb. destruct (Rlt_dec _ _); lra.
Qed.

(** The limits: an upper limit holds unless the lower one is larger; the lower
    one always holds; without a negative limit the value is not negative. *)
Theorem C68_alpha_limits xy amin amax c :
  (forall m, amin = Some m -> m <= alpha_cell xy amin amax c) /\
  (forall M, amax = Some M -> (forall m, amin = Some m -> m <= M) ->
     alpha_cell xy amin amax c <= M) /\
  ((forall M, amax = Some M -> 0 <= M) -> 0 <= alpha_cell xy amin amax c).
Proof.
  assert (N : 0 <= cell_width (fun i => fst (xy (c_nodes c i))) * Rabs (fst (c_grad c))
     + cell_width (fun i => snd (xy (c_nodes c i))) * Rabs (snd (c_grad c))).
  { assert (Z : forall x, 0 <= cell_width x) by (intros x; rewrite C68_cell_width; rmm).
    apply Rplus_le_le_0_compat; apply Rmult_le_pos; try apply Rabs_pos; apply Z. }
  unfold alpha_cell. set (a := _ + _) in *. clearbody a.
  split; [|split].
  - intros m ->. unfold max_value, Rltb. destruct (Rlt_dec _ _); lra.
  - intros M -> L. destruct amin as [m|].
    + specialize (L m eq_refl). unfold max_value, min_value, Rltb.
      destruct (Rlt_dec M a); destruct (Rlt_dec _ _); lra.
    + unfold min_value, Rltb. destruct (Rlt_dec M a); lra.
  - intros L.
    assert (A : 0 <= match amax with Some m => min_value m a | None => a end).
    { destruct amax as [M|]; [|exact N]. specialize (L M eq_refl).
      unfold min_value, Rltb. destruct (Rlt_dec M a); lra. }
    destruct amin as [m|]; [|exact A].
    unfold max_value, Rltb. destruct (Rlt_dec _ _); lra.
Qed.

(** Interpolation introduces no new extrema: a nodal value is the value of a
    cell that has the node. *)
Theorem C68_alpha_interpolation xy amin amax cells k :
  (exists c i, In c cells /\ (i < 3)%nat /\ c_nodes c i = k) ->
  exists c i, In c cells /\ (i < 3)%nat /\ c_nodes c i = k /\
    alpha_p1 xy amin amax cells k = alpha_cell xy amin amax c.
Proof.
  unfold alpha_p1. generalize (fun _ : nat => 0).
  induction cells as [|c cells IH] using rev_ind; intros z (c0 & i0 & H0 & L0 & E0).
  { destruct H0. }
  rewrite fold_left_app. cbn [fold_left]. unfold write at 1.
  destruct (existsb (fun i => Nat.eqb k (c_nodes c i)) [0; 1; 2]%nat) eqn:X.
  - apply existsb_exists in X as (i & Hi & Ei). apply Nat.eqb_eq in Ei.
    exists c, i. split; [apply in_or_app; right; now left|].
    split; [cbn in Hi; lia|]. now split.
  - assert (Y : In c0 cells).
    { apply in_app_or in H0 as [H0|[->|[]]]; [exact H0|]. exfalso.
      assert (existsb (fun i => Nat.eqb k (c_nodes c0 i)) [0; 1; 2]%nat = true); [|congruence].
      apply existsb_exists. exists i0. split; [cbn; lia|]. now apply Nat.eqb_eq. }
    destruct (IH z (ex_intro _ c0 (ex_intro _ i0 (conj Y (conj L0 E0)))))
      as (c1 & i1 & H1 & L1 & E1 & V1).
    exists c1, i1. split; [apply in_or_app; now left|]. now repeat split.
Qed.

(** Hence the limits hold at every node of the mesh, and the check passes. *)
Theorem C68_alpha_nodes xy amin amax cells :
  (forall M, amax = Some M -> 0 <= M) ->
  (forall c i, In c cells -> (i < 3)%nat ->
     0 <= alpha_p1 xy amin amax cells (c_nodes c i)) /\
  forall ks, (forall k, In k ks -> exists c i, In c cells /\ (i < 3)%nat /\ c_nodes c i = k) ->
  check_alpha (AFunction (map (alpha_p1 xy amin amax cells) ks)) = Valid.
Proof.
  intros L.
  assert (P : forall k, (exists c i, In c cells /\ (i < 3)%nat /\ c_nodes c i = k) ->
              0 <= alpha_p1 xy amin amax cells k).
  { intros k Hk. destruct (C68_alpha_interpolation xy amin amax cells k Hk)
      as (c & i & _ & _ & _ & ->). now apply C68_alpha_limits. }
  split.
  - intros c i Hc Hi. apply P. now exists c, i.
  - intros ks H. cbn [check_alpha]. unfold Rltb.
    destruct (Rlt_dec _ _) as [N|N]; [|reflexivity]. exfalso.
    assert (Z : 0 <= fold_right Rmin 0 (map (alpha_p1 xy amin amax cells) ks)).
    { clear N. induction ks as [|k ks IH]; cbn [map fold_right]; [lra|].
      apply Rmin_glb; [apply P, H; now left|]. apply IH. intros k' Hk'. apply H. now right. }
    lra.
Qed.

(** But a node takes the value of the last of its cells, so the parameter can
    be smaller than the variation of the bathymetry in a cell. *)
Definition xy4 (k : nat) : pt :=
  match k with O => (0, 0) | 1%nat => (1, 0) | 2%nat => (0, 1) | _ => (1, 1) end.
Definition steep : cell := mk_cell (fun i => i) (5, 0).
Definition flat : cell := mk_cell (fun i => match i with O => 1%nat | 1%nat => 2%nat | _ => 3%nat end) (0, 0).

Theorem C68_alpha_every_cell_refuted :
  exists b0 p q, in_cell xy4 steep p /\ in_cell xy4 steep q /\
    Rabs (bath steep b0 p - bath steep b0 q) = 5 /\
    alpha_p1 xy4 None None [steep; flat] 1%nat = 0 /\
    alpha_p1 xy4 None None [steep; flat] 2%nat = 0 /\
    alpha_p1 xy4 None None [flat; steep] 1%nat = 5.
Proof.
  exists 0, (0, 0), (1, 0).
  assert (A : alpha_cell xy4 None None flat = 0).
  { unfold alpha_cell. cbn [flat c_grad fst snd]. rewrite Rabs_R0. ring. }
  assert (B : alpha_cell xy4 None None steep = 5).
  { unfold alpha_cell. rewrite !C68_cell_width. cbn [steep c_grad c_nodes xy4 fst snd].
    rewrite Rabs_R0, Rabs_pos_eq by lra. rmm. }
  split; [exists 1, 0, 0; cbn; lra|]. split; [exists 0, 1, 0; cbn; lra|].
  split.
  { unfold bath. cbn. unfold Rabs. destruct (Rcase_abs _); lra. }
  unfold alpha_p1. cbn [fold_left]. unfold write. cbn [steep flat c_nodes existsb Nat.eqb orb].
  fold steep flat. rewrite A, B. repeat split.
Qed.

(* ------------------------------------------------------------------ *)
(** * Anisotropic cell size *)

Definition apply2 (J : mat2) (v : pt) : pt :=
  (a11 J * fst v + a12 J * snd v, a21 J * fst v + a22 J * snd v).
Definition norm2 (v : pt) : R := sqrt (dotp v v).
Definition det2 (J : mat2) : R := a11 J * a22 J - a12 J * a21 J.

(** Without the regularisation the value is the smallest factor by which the
    map from the reference cell stretches a vector. *)
Theorem C68_smallest_singular_value J :
  exists s, anisotropic 0 J = Some s /\
    (forall v, norm2 v = 1 -> s <= norm2 (apply2 J v)) /\
    (exists v, norm2 v = 1 /\ norm2 (apply2 J v) = s).
Proof.
  destruct J as [a b c d].
  unfold anisotropic, jtj. cbn [a11 a12 a21 a22].
  set (p := a * a + c * c). set (q := b * b + d * d). set (r := a * b + c * d).
  replace (b * a + d * c) with r by (unfold r; ring).
  assert (Dn : 0 <= (p - q) ^ 2 + 4 * r * r + 0).
  { assert (0 <= (p - q) * (p - q)) by apply Rle_0_sqr.
    assert (0 <= r * r) by apply Rle_0_sqr. lra. }
  unfold csqrt at 1. destruct (Rlt_dec _ 0) as [H|H]; [lra|]. clear H.
  set (S := sqrt ((p - q) ^ 2 + 4 * r * r + 0)).
  assert (S0 : 0 <= S) by apply sqrt_pos.
  assert (S2 : S * S = (p - q) ^ 2 + 4 * r * r + 0) by (apply sqrt_sqrt; exact Dn).
  assert (P0 : 0 <= p) by (unfold p; apply Rplus_le_le_0_compat; apply Rle_0_sqr).
  assert (Q0 : 0 <= q) by (unfold q; apply Rplus_le_le_0_compat; apply Rle_0_sqr).
  assert (DD : p * q - r * r = (a * d - b * c) * (a * d - b * c)) by (unfold p, q, r; ring).
  assert (D0 : 0 <= p * q - r * r) by (rewrite DD; apply Rle_0_sqr).
  assert (SL : S <= p + q).
  { apply Rsqr_incr_0_var; [|lra]. unfold Rsqr. rewrite S2.
    replace ((p + q) * (p + q)) with ((p - q) ^ 2 + 4 * (p * q)) by ring. lra. }
  unfold csqrt. destruct (Rlt_dec _ 0) as [H|H]; [lra|]. clear H.
  set (l := (p + q - S) / 2).
  assert (L0 : 0 <= l) by (unfold l; lra).
  assert (CH : (p - l) * (q - l) = r * r).
  { unfold l. replace ((p - (p + q - S) / 2) * (q - (p + q - S) / 2))
      with ((S * S - (p - q) ^ 2) / 4) by field. rewrite S2. field. }
  assert (PL : 0 <= p - l /\ 0 <= q - l).
  { assert (X : (p - q) * (p - q) <= S * S) by (rewrite S2; nra).
    assert (Y : Rabs (p - q) <= S).
    { rewrite <- (Rabs_pos_eq S) by exact S0. apply Rsqr_le_abs_0. exact X. }
    assert (- S <= p - q <= S) by (unfold Rabs in Y; destruct (Rcase_abs _); lra).
    unfold l; lra. }
  destruct PL as [PL QL].
  assert (SZ : forall x y, dotp (apply2 (mk_m a b c d) (x, y)) (apply2 (mk_m a b c d) (x, y))
               = p * (x * x) + 2 * r * (x * y) + q * (y * y)).
  { intros x y. unfold dotp, apply2, p, q, r. cbn [a11 a12 a21 a22 fst snd]. ring. }
  exists (sqrt l). split; [reflexivity|]. split.
  - intros [x y] N. unfold norm2 in *. apply sqrt_le_1_alt. rewrite SZ.
    assert (N1 : x * x + y * y = 1).
    { assert (Z : sqrt (dotp (x, y) (x, y)) * sqrt (dotp (x, y) (x, y)) = 1) by (rewrite N; ring).
      rewrite sqrt_sqrt in Z by apply dotp_pos. exact Z. }
    assert (G : 0 <= (p - l) * (x * x) + 2 * r * (x * y) + (q - l) * (y * y)).
    { destruct (Rle_lt_or_eq_dec _ _ PL) as [Z|Z].
      - apply Rmult_le_reg_l with (p - l); [exact Z|]. rewrite Rmult_0_r.
        replace ((p - l) * ((p - l) * (x * x) + 2 * r * (x * y) + (q - l) * (y * y)))
          with (((p - l) * x + r * y) * ((p - l) * x + r * y) + ((p - l) * (q - l) - r * r) * (y * y)) by ring.
        rewrite CH. replace (r * r - r * r) with 0 by ring. rewrite Rmult_0_l, Rplus_0_r. apply Rle_0_sqr.
      - rewrite <- Z in *. rewrite Rmult_0_l in CH. assert (r = 0) by nra. subst.
        rewrite H. assert (0 <= y * y) by apply Rle_0_sqr.
        assert (0 <= (q - l) * (y * y)) by (apply Rmult_le_pos; assumption). lra. }
    replace (p * (x * x) + 2 * r * (x * y) + q * (y * y))
      with (l * (x * x + y * y) + ((p - l) * (x * x) + 2 * r * (x * y) + (q - l) * (y * y))) by ring.
    rewrite N1. lra.
  - (* an eigenvector: (r, l - p), or (1, 0) / (0, 1) when r = 0 *)
    assert (Ev : forall x y, x * x + y * y <> 0 -> p * (x * x) + 2 * r * (x * y) + q * (y * y) = l * (x * x + y * y) ->
              exists v, norm2 v = 1 /\ norm2 (apply2 (mk_m a b c d) v) = sqrt l).
    { intros x y NZ E.
      assert (K : 0 < x * x + y * y).
      { assert (0 <= x * x) by apply Rle_0_sqr. assert (0 <= y * y) by apply Rle_0_sqr.
        destruct (Rle_lt_or_eq_dec 0 (x * x + y * y)); [lra|assumption|congruence]. }
      set (k := sqrt (x * x + y * y)).
      assert (K0 : 0 < k) by (apply sqrt_lt_R0; exact K).
      assert (KK : k * k = x * x + y * y) by (apply sqrt_sqrt; lra).
      exists (x / k, y / k). unfold norm2. rewrite SZ.
      assert (X1 : dotp (x / k, y / k) (x / k, y / k) = 1).
      { unfold dotp. cbn [fst snd]. replace (x / k * (x / k) + y / k * (y / k)) with ((x * x + y * y) / (k * k)) by (field; lra).
        rewrite KK. field. lra. }
      rewrite X1, sqrt_1. split; [reflexivity|]. f_equal.
      replace (p * (x / k * (x / k)) + 2 * r * (x / k * (y / k)) + q * (y / k * (y / k)))
        with ((p * (x * x) + 2 * r * (x * y) + q * (y * y)) / (k * k)) by (field; lra).
      rewrite E, KK. field. lra. }
    destruct (Req_dec r 0) as [R0|R0].
    + assert (Z : (p - l) * (q - l) = 0) by (rewrite CH, R0; ring).
      apply Rmult_integral in Z as [Z|Z].
      * apply (Ev 1 0); [lra|]. rewrite R0. lra.
      * apply (Ev 0 1); [lra|]. rewrite R0. lra.
    + apply (Ev r (l - p)).
      * assert (0 < r * r) by (destruct (Rtotal_order r 0) as [|[|]]; [nra|contradiction|nra]).
        assert (0 <= (l - p) * (l - p)) by apply Rle_0_sqr. lra.
      * replace (p * (r * r) + 2 * r * (r * (l - p)) + q * ((l - p) * (l - p)))
          with (l * (r * r + (l - p) * (l - p))
                + ((p - l) * (p - l) * (q - l) - (p - l) * (r * r))) by ring.
        replace ((p - l) * (p - l) * (q - l)) with ((p - l) * ((p - l) * (q - l))) by ring.
        rewrite CH. ring.
Qed.

(** With the regularisation it is NaN exactly for cells whose area is small:
    when the determinant of the map is below sqrt(eps)/2 = 7.5e-9. *)
Theorem C68_cell_size_nan eps J : 0 <= eps ->
  anisotropic eps J = None <-> 4 * (det2 J * det2 J) < eps.
Proof.
  intros Ep. destruct J as [a b c d]. unfold det2, anisotropic, jtj. cbn [a11 a12 a21 a22].
  set (p := a * a + c * c). set (q := b * b + d * d). set (r := a * b + c * d).
  replace (b * a + d * c) with r by (unfold r; ring).
  assert (Dn : 0 <= (p - q) ^ 2 + 4 * r * r + eps).
  { assert (0 <= (p - q) * (p - q)) by apply Rle_0_sqr.
    assert (0 <= r * r) by apply Rle_0_sqr. lra. }
  unfold csqrt at 1. destruct (Rlt_dec _ 0) as [H|H]; [lra|]. clear H.
  set (S := sqrt ((p - q) ^ 2 + 4 * r * r + eps)).
  assert (S0 : 0 <= S) by apply sqrt_pos.
  assert (S2 : S * S = (p - q) ^ 2 + 4 * r * r + eps) by (apply sqrt_sqrt; exact Dn).
  assert (P0 : 0 <= p) by (unfold p; apply Rplus_le_le_0_compat; apply Rle_0_sqr).
  assert (Q0 : 0 <= q) by (unfold q; apply Rplus_le_le_0_compat; apply Rle_0_sqr).
  assert (DD : p * q - r * r = (a * d - b * c) * (a * d - b * c)) by (unfold p, q, r; ring).
  assert (Sq : S * S - (p + q) * (p + q) = eps - 4 * ((a * d - b * c) * (a * d - b * c))).
  { rewrite S2, <- DD. ring. }
  unfold csqrt. destruct (Rlt_dec _ 0) as [H|H].
  - split; [intros _|reflexivity]. assert (p + q < S) by lra.
    assert (0 < (S - (p + q)) * (S + (p + q))) by (apply Rmult_lt_0_compat; lra). lra.
  - split; [discriminate|]. intros L. exfalso.
    assert (S <= p + q) by lra.
    assert (0 <= (p + q - S) * (p + q + S)) by (apply Rmult_le_pos; lra). lra.
Qed.

(** A right-angled cell with legs of 0.05 mm, or of 1e-4 degrees. *)
Theorem C68_cell_size_defined_refuted :
  exists J, det2 J <> 0 /\ anisotropic eps52 J = None.
Proof.
  exists (mk_m (/ 2 ^ 14) 0 0 (/ 2 ^ 14)).
  assert (X : det2 (mk_m (/ 2 ^ 14) 0 0 (/ 2 ^ 14)) = / 2 ^ 28).
  { unfold det2. cbn [a11 a12 a21 a22]. rewrite Rmult_0_l, Rminus_0_r.
    rewrite <- Rinv_mult, <- pow_add by (apply pow_nonzero; lra). reflexivity. }
  assert (P : forall n, 0 < / 2 ^ n) by (intros n; apply Rinv_0_lt_compat, pow_lt; lra).
  split.
  - rewrite X. assert (Z := P 28%nat). lra.
  - apply C68_cell_size_nan; [apply Rlt_le, P|]. rewrite X.
    rewrite <- Rinv_mult, <- pow_add by (apply pow_nonzero; lra).
    replace (28 + 28)%nat with (52 + 4)%nat by reflexivity.
    unfold eps52. rewrite pow_add, Rinv_mult by (apply pow_nonzero; lra).
    assert (Z := P 52%nat). replace (/ 2 ^ 4) with (/ 16) by (f_equal; cbn; ring). lra.
Qed.

(* ------------------------------------------------------------------ *)
(** * Beta plane *)

(** The Coriolis parameter at distance [y] to the north of the latitude. *)
Definition coriolis (latitude y : R) : R :=
  2 * omega * sin (2 * PI * latitude / 360 + y / earth_r).

Lemma om_pos : 0 < omega. Proof. unfold omega. lra. Qed.
Lemma er_pos : 0 < earth_r. Proof. unfold earth_r. lra. Qed.

(** It agrees with the exact parameter at the reference latitude, ... *)
Theorem C68_beta_plane_value lat y0 : beta_plane lat y0 y0 = coriolis lat 0.
Proof.
  unfold beta_plane, beta_plane_params, coriolis.
  replace (0 / earth_r) with 0 by (unfold Rdiv; ring). rewrite Rplus_0_r. ring.
Qed.

(** ... is tangent to it there, ... *)
Theorem C68_beta_plane_slope lat :
  derivable_pt_lim (coriolis lat) 0 (snd (beta_plane_params lat)).
Proof.
  unfold coriolis, beta_plane_params. cbn [snd].
  set (a0 := 2 * PI * lat / 360).
  replace (2 * omega * cos a0 / earth_r) with (2 * omega * (cos (a0 + 0 / earth_r) * (/ earth_r))).
  2: { replace (0 / earth_r) with 0 by (unfold Rdiv; ring). rewrite Rplus_0_r. field.
       assert (X := er_pos). lra. }
  apply (derivable_pt_lim_scal (fun y => sin (a0 + y / earth_r)) (2 * omega) 0).
  apply (derivable_pt_lim_comp (fun y => a0 + y / earth_r) sin 0 (/ earth_r) (cos (a0 + 0 / earth_r))).
  - replace (/ earth_r) with (0 + (1 * / earth_r)) by ring.
    apply (derivable_pt_lim_plus (fun _ => a0) (fun y => y / earth_r)).
    + apply derivable_pt_lim_const.
    + replace (1 * / earth_r) with (1 * (/ earth_r) + 0 * 0) by ring.
      apply (derivable_pt_lim_mult (fun y => y) (fun _ => / earth_r)).
      * apply derivable_pt_lim_id.
      * apply derivable_pt_lim_const.
  - apply derivable_pt_lim_sin.
Qed.

Lemma trig_remainder a t : Rabs (sin (a + t) - sin a - t * cos a) <= t * t.
Proof.
  assert (C1 : forall x y, Rabs (cos x - cos y) <= Rabs (x - y)).
  { intros x y. destruct (Req_dec x y) as [->|N].
    { replace (cos y - cos y) with 0 by ring. replace (y - y) with 0 by ring. lra. }
    assert (M : forall u v, u < v -> Rabs (cos v - cos u) <= v - u).
    { intros u v L.
      destruct (MVT_cor2 cos (fun x => - sin x) u v L) as (c & E & _).
      { intros c _. apply derivable_pt_lim_cos. }
      rewrite E, Rabs_mult, Rabs_Ropp, (Rabs_pos_eq (v - u)) by lra.
      assert (B := SIN_bound c).
      assert (Rabs (sin c) <= 1) by (unfold Rabs; destruct (Rcase_abs _); lra).
      assert (0 <= (1 - Rabs (sin c)) * (v - u)) by (apply Rmult_le_pos; lra). lra. }
    destruct (Rtotal_order x y) as [L|[L|L]]; [|contradiction|].
    - rewrite <- Rabs_Ropp, Ropp_minus_distr, <- (Rabs_Ropp (x - y)), Ropp_minus_distr.
      rewrite (Rabs_pos_eq (y - x)) by lra. now apply M.
    - rewrite (Rabs_pos_eq (x - y)) by lra. now apply M. }
  destruct (Req_dec t 0) as [->|N].
  { rewrite Rplus_0_r. replace (sin a - sin a - 0 * cos a) with 0 by ring.
    rewrite Rabs_R0. lra. }
  destruct (Rtotal_order t 0) as [L|[L|L]]; [|contradiction|].
  - destruct (MVT_cor2 sin cos (a + t) a) as (c & E & B); [lra|intros; apply derivable_pt_lim_sin|].
    replace (sin (a + t) - sin a - t * cos a) with (t * (cos c - cos a)) by
      (replace (sin (a + t)) with (sin a - (sin a - sin (a + t))) by ring; rewrite E; ring).
    rewrite Rabs_mult. specialize (C1 c a).
    replace (t * t) with (Rabs t * Rabs t) by (rewrite <- Rabs_mult; apply Rabs_pos_eq; nra).
    apply Rmult_le_compat_l; [apply Rabs_pos|]. eapply Rle_trans; [exact C1|].
    unfold Rabs. destruct (Rcase_abs _), (Rcase_abs _); lra.
  - destruct (MVT_cor2 sin cos a (a + t)) as (c & E & B); [lra|intros; apply derivable_pt_lim_sin|].
    replace (sin (a + t) - sin a - t * cos a) with (t * (cos c - cos a)) by
      (rewrite E; ring).
    rewrite Rabs_mult. specialize (C1 c a).
    replace (t * t) with (Rabs t * Rabs t) by (rewrite <- Rabs_mult; apply Rabs_pos_eq; nra).
    apply Rmult_le_compat_l; [apply Rabs_pos|]. eapply Rle_trans; [exact C1|].
    unfold Rabs. destruct (Rcase_abs _), (Rcase_abs _); lra.
Qed.

(** ... and differs from it by at most 2 Omega ((y - y0)/R)^2. *)
Theorem C68_beta_plane_error lat y0 y :
  Rabs (coriolis lat (y - y0) - beta_plane lat y0 y)
  <= 2 * omega * (((y - y0) / earth_r) * ((y - y0) / earth_r)).
Proof.
  unfold coriolis, beta_plane, beta_plane_params.
  set (a0 := 2 * PI * lat / 360). set (t := (y - y0) / earth_r).
  replace (2 * omega * sin (a0 + t)
     - (2 * omega * sin a0 + 2 * omega * cos a0 / earth_r * (y - y0)))
    with (2 * omega * (sin (a0 + t) - sin a0 - t * cos a0)).
  2: { unfold t. field. assert (X := er_pos). lra. }
  assert (O := om_pos).
  rewrite Rabs_mult, (Rabs_pos_eq (2 * omega)) by lra.
  apply Rmult_le_compat_l; [lra|apply trig_remainder].
Qed.

Print Assumptions C68_smallest_singular_value.
