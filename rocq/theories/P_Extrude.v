(** C56 vertical grid of the extruded mesh and C47 moving mesh. *)
From Coq Require Import Reals List Lia Lra Arith.
From Verif Require Import Extrude_Model.
Import ListNotations.
Open Scope R_scope.
Open Scope list_scope.

(** ** Preliminaries *)

Lemma cpow_0 : forall s, s <> 0 -> cpow 0 s = 0.
Proof.
  intros s H. unfold cpow. destruct (Req_EM_T 0 0) as [_|N]; [|now elim N].
  destruct (Req_EM_T s 0); [contradiction|reflexivity].
Qed.

Lemma cpow_1 : forall s, cpow 1 s = 1.
Proof.
  intro s. unfold cpow. destruct (Req_EM_T 1 0) as [E|_]; [lra|].
  unfold Rpower. rewrite ln_1, Rmult_0_r. apply exp_0.
Qed.

Lemma cpow_nonneg : forall x s, 0 <= cpow x s.
Proof.
  intros x s. unfold cpow. destruct (Req_EM_T x 0).
  - destruct (Req_EM_T s 0); lra.
  - left. apply exp_pos.
Qed.

Lemma cpow_mono : forall x y s, 0 <= x <= y -> 0 < s -> cpow x s <= cpow y s.
Proof.
  intros x y s [Hx Hxy] Hs.
  destruct (Req_dec x 0) as [E|E].
  - subst x. rewrite cpow_0 by lra. apply cpow_nonneg.
  - unfold cpow. destruct (Req_EM_T x 0); [contradiction|].
    destruct (Req_EM_T y 0); [lra|].
    apply Rle_Rpower_l; lra.
Qed.

Lemma cpow_strict : forall x y s, 0 <= x < y -> 0 < s -> cpow x s < cpow y s.
Proof.
  intros x y s [Hx Hxy] Hs.
  destruct (Req_dec x 0) as [E|E].
  - subst x. rewrite cpow_0 by lra. unfold cpow.
    destruct (Req_EM_T y 0); [lra|]. apply exp_pos.
  - unfold cpow. destruct (Req_EM_T x 0); [contradiction|].
    destruct (Req_EM_T y 0); [lra|].
    unfold Rpower. apply exp_increasing. apply Rmult_lt_compat_l; [exact Hs|].
    apply ln_increasing; lra.
Qed.

Lemma sigma_top : forall n, sigma n 0 = 0.
Proof. intro n. unfold sigma. cbn [INR]. unfold Rdiv. ring. Qed.

Lemma sigma_bottom : forall n, (0 < n)%nat -> sigma n n = 1.
Proof.
  intros n H. unfold sigma. apply lt_0_INR in H. field. lra.
Qed.

Lemma sigma_strict : forall n i j, (0 < n)%nat -> (i < j)%nat ->
  0 <= sigma n i < sigma n j.
Proof.
  intros n i j Hn Hij. unfold sigma.
  assert (0 < / INR n) by (apply Rinv_0_lt_compat, lt_0_INR, Hn).
  pose proof (pos_INR i). pose proof (lt_INR i j Hij).
  unfold Rdiv. split.
  - apply Rmult_le_pos; lra.
  - apply Rmult_lt_compat_r; lra.
Qed.

(** Which minimum depth applies to which interface: its own index in the lower
    half of the column, the one above in the upper half. *)
Theorem C56_min_depth_index : forall n i, (0 < i <= n)%nat ->
  layer_index n i = (if 2 * i <? n then i - 1 else i)%nat.
Proof.
  intros n i H. unfold layer_index.
  assert (A : (i * (n + 1) <? n)%nat = false) by (apply Nat.ltb_ge; nia).
  rewrite A.
  assert (E : (2 * (i * (n + 1) - n) + n = (2 * (i - 1)) * n + (2 * i + n))%nat) by nia.
  rewrite E.
  replace (2 * (i - 1) * n)%nat with ((i - 1) * (2 * n))%nat by ring.
  rewrite Nat.div_add_l by lia.
  destruct (2 * i <? n)%nat eqn:B.
  - apply Nat.ltb_lt in B.
    rewrite (Nat.div_small (2 * i + n) (2 * n)) by lia. lia.
  - apply Nat.ltb_ge in B.
    assert (D : ((2 * i + n) / (2 * n) = 1)%nat).
    { symmetry. apply Nat.div_unique with (2 * i - n)%nat; lia. }
    rewrite D. lia.
Qed.

Lemma layer_index_0 : forall n, layer_index n 0 = 0%nat.
Proof.
  intro n. unfold layer_index. destruct n as [|n]; [reflexivity|].
  reflexivity.
Qed.

Lemma layer_index_n : forall n, layer_index n n = n.
Proof.
  intro n. destruct n as [|n]; [reflexivity|].
  rewrite C56_min_depth_index by lia.
  destruct (2 * S n <? S n)%nat eqn:E; [|reflexivity].
  apply Nat.ltb_lt in E. lia.
Qed.

Lemma layer_index_mono : forall n i j, (i <= j <= n)%nat ->
  (layer_index n i <= layer_index n j)%nat.
Proof.
  intros n i j H. destruct i as [|i].
  - rewrite layer_index_0. lia.
  - rewrite !C56_min_depth_index by lia.
    destruct (2 * S i <? n)%nat eqn:A, (2 * j <? n)%nat eqn:B;
      rewrite ?Nat.ltb_lt, ?Nat.ltb_ge in *; lia.
Qed.

Lemma layer_index_le : forall n i, (i <= n)%nat -> (layer_index n i <= i)%nat.
Proof.
  intros n i H. destruct i as [|i]; [rewrite layer_index_0; lia|].
  rewrite C56_min_depth_index by lia. destruct (_ <? _)%nat; lia.
Qed.

(** ** C56 *)

(** A column has one coordinate per interface, and is built exactly when there
    are at most n_layers + 1 minimum depths. *)
Theorem C56_column : forall bath s n mds,
  (extrude_column bath s n mds <> None <-> (List.length mds <= n + 1)%nat)
  /\ forall z, extrude_column bath s n mds = Some z ->
       List.length z = (n + 1)%nat
       /\ forall i, (i <= n)%nat ->
            nth i z 0 = new_z bath s n (fun k => nth k mds 1e22) i.
Proof.
  intros bath s n mds. unfold extrude_column, min_depth_arr. split.
  - destruct (n + 1 <? List.length mds)%nat eqn:E;
      rewrite ?Nat.ltb_lt, ?Nat.ltb_ge in E; split; intro H; try lia;
      try (now elim H).
  - intros z H. destruct (n + 1 <? List.length mds)%nat eqn:E; [discriminate|].
    injection H as <-. rewrite map_length, seq_length. split; [reflexivity|].
    intros i Hi. set (f := new_z bath s n (fun k => nth k mds 1e22)).
    rewrite nth_indep with (d' := f 0%nat) by (rewrite map_length, seq_length; lia).
    rewrite (map_nth f), seq_nth by lia. reflexivity.
Qed.

(** The top interface is at the surface. *)
Theorem C56_surface : forall bath s n md,
  0 < s -> 0 <= md 0%nat -> new_z bath s n md 0 = 0.
Proof.
  intros bath s n md Hs Hm. unfold new_z.
  rewrite sigma_top, cpow_0, layer_index_0 by lra.
  rewrite Rmult_0_r. apply Rmax_left. lra.
Qed.

(** The bottom interface is at the bathymetry (or at the last minimum depth
    when that is shallower). *)
Theorem C56_bottom : forall bath s n md, (0 < n)%nat ->
  new_z bath s n md n = - Rmin bath (md n)
  /\ (bath <= md n -> new_z bath s n md n = - bath).
Proof.
  intros bath s n md Hn. unfold new_z.
  rewrite (sigma_bottom n Hn), cpow_1, layer_index_n, Rmult_1_r.
  assert (E : Rmax (- bath) (- md n) = - Rmin bath (md n)).
  { unfold Rmax, Rmin. destruct (Rle_dec (- bath) (- md n)), (Rle_dec bath (md n)); lra. }
  split; [exact E|]. intro H. rewrite E, Rmin_left by exact H. reflexivity.
Qed.

(** With at most n_layers minimum depths the bottom is the bathymetry. *)
Theorem C56_bottom_column : forall bath s n mds z,
  (0 < n)%nat -> (List.length mds <= n)%nat -> bath <= 1e22 ->
  extrude_column bath s n mds = Some z -> nth n z 0 = - bath.
Proof.
  intros bath s n mds z Hn Hl Hb H.
  destruct (C56_column bath s n mds) as [_ C].
  destruct (C z H) as [_ N]. rewrite N by lia.
  apply C56_bottom; [exact Hn|]. rewrite nth_overflow by lia. exact Hb.
Qed.

(** Coordinates do not increase downwards, for every stretching and every
    non-decreasing list of minimum depths. *)
Theorem C56_ordered : forall bath s n md i j,
  0 <= bath -> 0 < s -> (0 < n)%nat ->
  (forall k l, (k <= l)%nat -> md k <= md l) ->
  (i <= j <= n)%nat -> new_z bath s n md j <= new_z bath s n md i.
Proof.
  intros bath s n md i j Hb Hs Hn Hm Hij. unfold new_z.
  assert (A : cpow (sigma n i) s <= cpow (sigma n j) s).
  { destruct (Nat.eq_dec i j) as [->|Hne]; [lra|].
    pose proof (sigma_strict n i j Hn ltac:(lia)).
    apply cpow_mono; lra. }
  assert (B : md (layer_index n i) <= md (layer_index n j)).
  { apply Hm, layer_index_mono. lia. }
  assert (D : - bath * cpow (sigma n j) s <= - bath * cpow (sigma n i) s).
  { rewrite !Ropp_mult_distr_l_reverse. apply Ropp_le_contravar.
    apply Rmult_le_compat_l; lra. }
  apply Rmax_lub.
  - apply Rle_trans with (2 := Rmax_l _ _). exact D.
  - apply Rle_trans with (2 := Rmax_r _ _). lra.
Qed.

(** Without active minimum depths every layer has a positive height. *)
Theorem C56_strictly_ordered : forall bath s n md i j,
  0 < bath -> 0 < s -> (0 < n)%nat -> (forall k, bath <= md k) ->
  (i < j <= n)%nat -> new_z bath s n md j < new_z bath s n md i.
Proof.
  intros bath s n md i j Hb Hs Hn Hm Hij.
  assert (C1 : forall k, (k <= n)%nat -> cpow (sigma n k) s <= 1).
  { intros k Hk. rewrite <- (cpow_1 s). apply cpow_mono; [|exact Hs].
    rewrite <- (sigma_bottom n Hn).
    destruct (Nat.eq_dec k n) as [->|Hne].
    - rewrite (sigma_bottom n Hn). lra.
    - pose proof (sigma_strict n k n Hn ltac:(lia)). lra. }
  assert (E : forall k, (k <= n)%nat -> new_z bath s n md k = - bath * cpow (sigma n k) s).
  { intros k Hk. unfold new_z. apply Rmax_left.
    specialize (C1 k Hk). specialize (Hm (layer_index n k)).
    assert (bath * cpow (sigma n k) s <= bath * 1) by (apply Rmult_le_compat_l; lra).
    lra. }
  rewrite !E by lia.
  pose proof (cpow_strict _ _ s (sigma_strict n i j Hn ltac:(lia)) Hs) as S.
  assert (bath * cpow (sigma n i) s < bath * cpow (sigma n j) s)
    by (apply Rmult_lt_compat_l; lra).
  lra.
Qed.

(** Every interface lies within the water column, and not below its minimum
    depth. *)
Theorem C56_range : forall bath s n md i,
  0 <= bath -> 0 < s -> (0 < n)%nat -> (i <= n)%nat ->
  - bath <= new_z bath s n md i
  /\ - md (layer_index n i) <= new_z bath s n md i
  /\ ((forall k, 0 <= md k) -> new_z bath s n md i <= 0).
Proof.
  intros bath s n md i Hb Hs Hn Hi. unfold new_z.
  pose proof (cpow_nonneg (sigma n i) s) as P.
  assert (C1 : cpow (sigma n i) s <= 1).
  { rewrite <- (cpow_1 s). apply cpow_mono; [|exact Hs].
    rewrite <- (sigma_bottom n Hn).
    destruct (Nat.eq_dec i n) as [->|Hne].
    - rewrite (sigma_bottom n Hn). lra.
    - pose proof (sigma_strict n i n Hn ltac:(lia)). lra. }
  split; [|split].
  - apply Rle_trans with (2 := Rmax_l _ _).
    assert (bath * cpow (sigma n i) s <= bath * 1) by (apply Rmult_le_compat_l; lra).
    lra.
  - apply Rmax_r.
  - intro Hm. specialize (Hm (layer_index n i)).
    assert (0 <= bath * cpow (sigma n i) s) by (apply Rmult_le_pos; lra).
    apply Rmax_lub; lra.
Qed.

(** The default stretching gives equally thick layers. *)
Theorem C56_uniform : forall bath n md i, (0 < n)%nat -> (i <= n)%nat ->
  0 <= bath -> (forall k, bath <= md k) ->
  new_z bath 1 n md i = - bath * (INR i / INR n).
Proof.
  intros bath n md i Hn Hi Hb Hm. unfold new_z.
  assert (E : cpow (sigma n i) 1 = sigma n i).
  { destruct (Nat.eq_dec i 0) as [->|Hne].
    - rewrite sigma_top. apply cpow_0. lra.
    - pose proof (sigma_strict n 0 i Hn ltac:(lia)) as S. rewrite sigma_top in S.
      unfold cpow. destruct (Req_EM_T (sigma n i) 0); [lra|].
      apply Rpower_1. lra. }
  rewrite E.
  assert (S1 : sigma n i <= 1).
  { rewrite <- (sigma_bottom n Hn). destruct (Nat.eq_dec i n) as [->|Hne]; [lra|].
    pose proof (sigma_strict n i n Hn ltac:(lia)). lra. }
  change (INR i / INR n) with (sigma n i).
  apply Rmax_left. specialize (Hm (layer_index n i)).
  assert (bath * sigma n i <= bath * 1) by (apply Rmult_le_compat_l; lra).
  lra.
Qed.

(** Finding: a stretching factor 0 puts every interface at the bottom. *)
Theorem C56_surface_zero_stretch_refuted :
  ~ (forall bath s n md, 0 <= s -> 0 <= md 0%nat -> new_z bath s n md 0 = 0).
Proof.
  intro H. specialize (H 1 0 1%nat (fun _ => 5) ltac:(lra) ltac:(lra)).
  unfold new_z in H. rewrite sigma_top in H. unfold cpow in H.
  destruct (Req_EM_T 0 0) as [_|N]; [|now elim N].
  rewrite Rmax_left in H; lra.
Qed.

(** Finding: minimum depths that decrease downwards turn the column over. *)
Theorem C56_ordered_refuted :
  ~ (forall bath s n md i j, 0 <= bath -> 0 < s -> (0 < n)%nat ->
       (forall k, 0 <= md k) -> (i <= j <= n)%nat ->
       new_z bath s n md j <= new_z bath s n md i).
Proof.
  intro H.
  specialize (H 10 1 2%nat (fun k => match k with 0 => 0 | 1 => 4 | _ => 1 end)
                1%nat 2%nat ltac:(lra) ltac:(lra) ltac:(lia)).
  assert (A : forall k : nat, 0 <= match k with 0 => 0 | 1 => 4 | _ => 1 end).
  { intros [|[|k]]; lra. }
  specialize (H A ltac:(lia)).
  destruct (C56_bottom 10 1 2 (fun k => match k with 0 => 0 | 1 => 4 | _ => 1 end) ltac:(lia))
    as [B _].
  rewrite B in H. cbn [Nat.eqb] in H. rewrite Rmin_right in H by lra.
  unfold new_z in H.
  assert (L : layer_index 2 1 = 1%nat) by reflexivity. rewrite L in H.
  assert (E : cpow (sigma 2 1) 1 = / 2).
  { unfold sigma. cbn [INR]. replace (1 / (1 + 1)) with (/ 2) by field.
    unfold cpow. destruct (Req_EM_T (/ 2) 0); [lra|]. apply Rpower_1. lra. }
  rewrite E in H. replace (-10 * / 2) with (-5) in H by lra.
  rewrite Rmax_right in H by lra. lra.
Qed.

(** Finding: a minimum depth is not applied to the interface it is given for:
    in the upper half of the column interface i uses entry i - 1, so with four
    layers entry 1 is never used. *)
Theorem C56_own_min_depth_refuted :
  ~ (forall n k, (k <= n)%nat -> exists i, (i <= n)%nat /\ layer_index n i = k).
Proof.
  intro H. destruct (H 4%nat 1%nat ltac:(lia)) as [i [Hi E]].
  destruct i as [|[|[|[|[|i]]]]]; try (cbv in E; discriminate). lia.
Qed.

Example C56_example : exists z, extrude_column 12 1 3 [1] = Some z
  /\ nth 0 z 0 = 0 /\ nth 3 z 0 = -12.
Proof.
  destruct (extrude_column 12 1 3 [1]) as [z|] eqn:E.
  - exists z. split; [reflexivity|].
    destruct (C56_column 12 1 3 [1]) as [_ C]. destruct (C z E) as [_ N].
    rewrite !N by lia. split.
    + apply C56_surface; [lra|]. cbn [nth]. lra.
    + replace (-12) with (- (12)) by lra.
      apply C56_bottom; [lia|]. cbn [nth]. lra.
  - exfalso. destruct (C56_column 12 1 3 [1]) as [C _].
    assert (extrude_column 12 1 3 [1] <> None) as D by (apply C; cbn; lia).
    now elim D.
Qed.

(** ** C47 *)

(** The reference surface goes to the free surface, the reference bottom stays
    at the bottom. *)
Theorem C47_surface_and_bottom : forall eta bath, bath <> 0 ->
  ale_z eta bath 0 = eta /\ ale_z eta bath (- bath) = - bath.
Proof. intros eta bath H. unfold ale_z. split; field; exact H. Qed.

(** The distance between two interfaces scales with the total depth. *)
Theorem C47_layer_scaling : forall eta bath z1 z2, bath <> 0 ->
  ale_z eta bath z1 - ale_z eta bath z2 = (z1 - z2) * ((eta + bath) / bath).
Proof. intros. unfold ale_z. field. assumption. Qed.

(** Interfaces keep their order exactly when the total depth is positive. *)
Theorem C47_order : forall eta bath, 0 < bath ->
  (0 < eta + bath <->
   forall z1 z2, z1 < z2 -> ale_z eta bath z1 < ale_z eta bath z2).
Proof.
  intros eta bath Hb. split.
  - intros Ht z1 z2 Hz.
    pose proof (C47_layer_scaling eta bath z2 z1 ltac:(lra)) as S.
    assert (0 < (eta + bath) / bath).
    { unfold Rdiv. apply Rmult_lt_0_compat; [exact Ht|]. now apply Rinv_0_lt_compat. }
    assert (0 < (z2 - z1) * ((eta + bath) / bath)) by (apply Rmult_lt_0_compat; lra).
    lra.
  - intro H. specialize (H (- bath) 0 ltac:(lra)).
    destruct (C47_surface_and_bottom eta bath ltac:(lra)) as [A B].
    rewrite A, B in H. lra.
Qed.

(** The mesh stays between bottom and free surface. *)
Theorem C47_range : forall eta bath z, 0 < bath -> 0 <= eta + bath ->
  - bath <= z <= 0 -> - bath <= ale_z eta bath z <= eta.
Proof.
  intros eta bath z Hb Ht Hz.
  assert (0 <= (eta + bath) / bath).
  { unfold Rdiv. apply Rmult_le_pos; [exact Ht|].
    left. now apply Rinv_0_lt_compat. }
  destruct (C47_surface_and_bottom eta bath ltac:(lra)) as [A B].
  pose proof (C47_layer_scaling eta bath z (- bath) ltac:(lra)) as S1.
  pose proof (C47_layer_scaling eta bath 0 z ltac:(lra)) as S2.
  assert (0 <= (z - - bath) * ((eta + bath) / bath)) by (apply Rmult_le_pos; lra).
  assert (0 <= (0 - z) * ((eta + bath) / bath)) by (apply Rmult_le_pos; lra).
  lra.
Qed.

(** A mesh at rest is the reference mesh, and no drift builds up: after any
    number of updates the mesh depends on the last elevation only. *)
Theorem C47_no_drift : forall bath etas eta c, bath <> 0 ->
  ale_run bath (etas ++ [eta]) c = ale_update bath eta c
  /\ col_ref (ale_run bath etas c) = col_ref c
  /\ col_z (ale_update bath 0 (ale_initialize (col_ref c))) = col_ref c.
Proof.
  intros bath etas eta c Hb.
  assert (R : forall etas c, col_ref (ale_run bath etas c) = col_ref c).
  { induction etas0 as [|e r IH]; intro d; [reflexivity|].
    cbn [ale_run fold_left]. exact (IH (ale_update bath e d)). }
  split; [|split].
  - unfold ale_run. rewrite fold_left_app. cbn [fold_left].
    fold (ale_run bath etas c). unfold ale_update. now rewrite R.
  - apply R.
  - cbn [ale_update ale_initialize col_ref col_z].
    rewrite <- (map_id (col_ref c)) at 2. apply map_ext. intro z.
    unfold ale_z. field. exact Hb.
Qed.

(** Layer heights of an ordered column add up to the total depth. *)
Fixpoint rtotal (l : list R) : R :=
  match l with [] => 0 | x :: r => x + rtotal r end.

Fixpoint decreasing (z : list R) : Prop :=
  match z with
  | a :: ((b :: _) as r) => b <= a /\ decreasing r
  | _ => True
  end.

Lemma heights_total : forall z, decreasing z ->
  rtotal (elem_heights z) = hd 0 z - last z 0.
Proof.
  induction z as [|a [|b r] IH]; intro D.
  - cbn. lra.
  - cbn. lra.
  - destruct D as [D1 D2]. specialize (IH D2).
    change (elem_heights (a :: b :: r)) with (elem_height a b :: elem_heights (b :: r)).
    cbn [rtotal]. rewrite IH. cbn [hd].
    change (last (a :: b :: r) 0) with (last (b :: r) 0).
    unfold elem_height. rewrite Rabs_pos_eq by lra. lra.
Qed.

Lemma decreasing_map : forall eta bath z, 0 < bath -> 0 <= eta + bath ->
  decreasing z -> decreasing (map (ale_z eta bath) z).
Proof.
  intros eta bath z Hb Ht. induction z as [|a [|b r] IH]; intro D; [exact I|exact I|].
  destruct D as [D1 D2].
  change (ale_z eta bath b <= ale_z eta bath a
          /\ decreasing (map (ale_z eta bath) (b :: r))).
  split; [|exact (IH D2)].
  pose proof (C47_layer_scaling eta bath a b ltac:(lra)).
  assert (0 <= (eta + bath) / bath).
  { unfold Rdiv. apply Rmult_le_pos; [exact Ht|].
    left. now apply Rinv_0_lt_compat. }
  assert (0 <= (a - b) * ((eta + bath) / bath)) by (apply Rmult_le_pos; lra).
  lra.
Qed.

Theorem C47_heights_total_depth : forall eta bath z,
  0 < bath -> 0 <= eta + bath ->
  z <> [] -> hd 0 z = 0 -> last z 0 = - bath -> decreasing z ->
  rtotal (col_h (ale_update bath eta (ale_initialize z))) = eta + bath.
Proof.
  intros eta bath z Hb Ht Hz H0 Hl D.
  cbn [ale_update ale_initialize col_h col_ref].
  rewrite heights_total by (apply decreasing_map; assumption).
  destruct (C47_surface_and_bottom eta bath ltac:(lra)) as [A B].
  assert (E1 : hd 0 (map (ale_z eta bath) z) = eta).
  { destruct z as [|a r]; [now elim Hz|]. cbn [map hd] in *. now rewrite H0. }
  assert (E2 : last (map (ale_z eta bath) z) 0 = - bath).
  { transitivity (ale_z eta bath (last z 0)); [|rewrite Hl; exact B]. clear - Hz.
    induction z as [|a [|b r] IH]; [now elim Hz|reflexivity|].
    change (last (map (ale_z eta bath) (b :: r)) 0 = ale_z eta bath (last (b :: r) 0)).
    apply IH. discriminate. }
  rewrite E1, E2. lra.
Qed.

(** Moving with the default mesh velocity for a time [c * dt] carries every
    interface from its old to its new position. *)
Theorem C47_mesh_velocity : forall dt c bath elev_old elev_new z,
  dt <> 0 -> c <> 0 -> bath <> 0 ->
  ale_z elev_new bath z - ale_z elev_old bath z
  = c * dt * ale_w (default_w_surf dt c elev_old elev_new) bath z.
Proof.
  intros. unfold ale_z, ale_w, default_w_surf. field. repeat split; assumption.
Qed.

(** The mesh velocity vanishes at the bottom and is that of the free surface at
    the top. *)
Theorem C47_velocity_bounds : forall w bath, bath <> 0 ->
  ale_w w bath (- bath) = 0 /\ ale_w w bath 0 = w.
Proof. intros w bath H. unfold ale_w. split; field; exact H. Qed.

(** The stage velocities of the two-stage integrator: a full step with the first
    one reaches the first mesh; half a step with both, from the start, reaches
    the final one. *)
Theorem C47_stage_velocities : forall dt bath e0 e1 e2 z,
  dt <> 0 -> bath <> 0 ->
  ale_z e1 bath z = ale_z e0 bath z + dt * ale_w (stage_w_surf dt 0 e0 e1 e1) bath z
  /\ ale_z e2 bath z
     = ale_z e0 bath z
       + dt / 2 * (ale_w (stage_w_surf dt 0 e0 e1 e1) bath z
                   + ale_w (stage_w_surf dt 1 e0 e1 e2) bath z).
Proof.
  intros. unfold ale_z, ale_w, stage_w_surf.
  split; field; repeat split; assumption.
Qed.

Example C47_example :
  map (ale_z 1 10) [0; -5; -10] = [1; -4.5; -10]
  /\ rtotal (col_h (ale_update 10 1 (ale_initialize [0; -5; -10]))) = 11.
Proof.
  split.
  - cbn [map]. unfold ale_z. f_equal; [lra|]. f_equal; [lra|]. f_equal. lra.
  - rewrite C47_heights_total_depth; cbn [hd last]; try lra; try discriminate.
    cbn [decreasing]. lra.
Qed.

Print Assumptions C56_ordered.
Print Assumptions C47_order.
Print Assumptions C47_stage_velocities.
