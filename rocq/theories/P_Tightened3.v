(** Clauses of C44, C53 and C57 added after wrong programs survived. *)
From Coq Require Import Reals List String Lra Lia.
From Verif Require Import Eos_Model P_Eos.
Import ListNotations.
Open Scope R_scope.

(** ** C57: the nonlinear equation of state reproduces the check values published with it
    (Jackett et al. 2006, table in the appendix). *)
Lemma pow15_between : forall s lo hi, 0 <= s -> 0 <= lo -> 0 <= hi ->
  lo * lo <= s <= hi * hi -> s * lo <= pow15 s <= s * hi.
Proof.
  intros s lo hi Hs Hl Hh (H1 & H2). unfold pow15.
  assert (L : lo <= sqrt s) by (rewrite <- (sqrt_square lo) by exact Hl; apply sqrt_le_1_alt; exact H1).
  assert (U : sqrt s <= hi) by (rewrite <- (sqrt_square hi) by exact Hh; apply sqrt_le_1_alt; exact H2).
  split; apply Rmult_le_compat_l; assumption.
Qed.
Lemma quotient_between : forall n d c e, 0 < d -> (c - e) * d <= n <= (c + e) * d -> Rabs (n / d - c) <= e.
Proof.
  intros n d c e Hd (H1 & H2). apply Rabs_le.
  assert (E : n / d * d = n) by (field; lra).
  split.
  - apply (Rmult_le_reg_r d); [exact Hd|]. lra.
  - apply (Rmult_le_reg_r d); [exact Hd|]. lra.
Qed.
Ltac check_value s lo hi :=
  unfold jackett_compute_rho; rewrite Rmax_left by lra; unfold jackett_eval; rewrite Rminus_0_r;
  pose proof (pow15_between s lo hi ltac:(lra) ltac:(lra) ltac:(lra) ltac:(lra)) as Hq;
  unfold jackett_pn, jackett_pd, ja, jb; cbn [nth]; set (q := pow15 s) in *; clearbody q;
  apply quotient_between; lra.
Theorem C57_check_values :
  Rabs (jackett_compute_rho 35 25 2000 0 - 1031.65056056576) <= 1e-10
  /\ Rabs (jackett_compute_rho 20 20 1000 0 - 1017.72886801964) <= 1e-10
  /\ Rabs (jackett_compute_rho 40 12 8000 0 - 1062.95279820631) <= 1e-10.
Proof.
  split; [|split].
  - check_value 35 5.9160797830996 5.9160797830997.
  - check_value 20 4.4721359549995 4.4721359549996.
  - check_value 40 6.3245553203367 6.3245553203368.
Qed.

(** Saltier water is denser, and so is water under more pressure, in the whole
    oceanographic range. *)
Lemma density_bound : forall s th p, 0 <= s <= 42 -> 0 <= th <= 40 -> 0 <= p <= 10000 ->
  0 < jackett_pn s th p <= 1250 * jackett_pd s th p.
Proof.
  intros s th p [Hs1 Hs2] [Ht1 Ht2] [Hp1 Hp2].
  unfold jackett_pn, jackett_pd, ja, jb; cbn [nth].
  assert (Hq : 0 <= pow15 s) by (unfold pow15; apply Rmult_le_pos; [lra|apply sqrt_pos]).
  set (q := pow15 s) in *. clearbody q.
  assert (A1 : 0 <= th * th <= 40 * th) by (split; [apply Rmult_le_pos; lra|apply Rmult_le_compat_r; lra]).
  assert (A2 : 0 <= th * th * th <= 40 * (th * th)).
  { split; [apply Rmult_le_pos; lra|]. rewrite (Rmult_comm 40). apply Rmult_le_compat_l; lra. }
  assert (A3 : 0 <= th * th * th * th) by (apply Rmult_le_pos; lra).
  assert (B1 : 0 <= th * s <= 40 * s) by (split; [apply Rmult_le_pos; lra|apply Rmult_le_compat_r; lra]).
  assert (B2 : 0 <= s * s <= 42 * s) by (split; [apply Rmult_le_pos; lra|apply Rmult_le_compat_r; lra]).
  assert (B3 : 0 <= p * s <= 42 * p) by (split; [apply Rmult_le_pos; lra|]; rewrite (Rmult_comm 42); apply Rmult_le_compat_l; lra).
  assert (B4 : 0 <= p * p <= 10000 * p) by (split; [apply Rmult_le_pos; lra|apply Rmult_le_compat_r; lra]).
  assert (B5 : 0 <= p * th * th <= 1600 * p).
  { rewrite Rmult_assoc. split; [apply Rmult_le_pos; lra|]. rewrite (Rmult_comm 1600). apply Rmult_le_compat_l; lra. }
  assert (B6 : 0 <= p * p * th * th <= 1600 * (p * p)).
  { replace (p * p * th * th) with (p * p * (th * th)) by ring. split; [apply Rmult_le_pos; lra|].
    rewrite (Rmult_comm 1600). apply Rmult_le_compat_l; lra. }
  assert (B7 : 0 <= s * th * th * th <= 64000 * s).
  { replace (s * th * th * th) with (s * (th * th * th)) by ring. split; [apply Rmult_le_pos; lra|].
    rewrite (Rmult_comm 64000). apply Rmult_le_compat_l; lra. }
  assert (B8 : 0 <= q * th * th) by (rewrite Rmult_assoc; apply Rmult_le_pos; lra).
  assert (B9 : 0 <= p * p * th * th * th <= 64000 * (p * p)).
  { replace (p * p * th * th * th) with (p * p * (th * th * th)) by ring. split; [apply Rmult_le_pos; lra|].
    rewrite (Rmult_comm 64000). apply Rmult_le_compat_l; lra. }
  assert (B10 : 0 <= p * p * p <= 10000 * (p * p)).
  { split; [apply Rmult_le_pos; lra|]. rewrite (Rmult_comm 10000). apply Rmult_le_compat_l; lra. }
  assert (B11 : 0 <= p * p * p * th <= 40 * (p * p * p)).
  { split; [apply Rmult_le_pos; lra|]. rewrite (Rmult_comm 40). apply Rmult_le_compat_l; lra. }
  replace (s * th) with (th * s) by ring.
  split; lra.
Qed.
Lemma quotient_increases : forall n1 d1 n2 d2 a b, 0 < d1 -> 0 < d2 -> 0 < n1 -> n1 <= 1250 * d1 ->
  0 < a -> a <= n2 - n1 -> d2 - d1 <= b -> 1250 * b < a -> n1 / d1 < n2 / d2.
Proof.
  intros n1 d1 n2 d2 a b P1 P2 N U Ha Hn Hd H.
  apply (Rmult_lt_reg_r (d1 * d2)); [apply Rmult_lt_0_compat; assumption|].
  replace (n1 / d1 * (d1 * d2)) with (n1 * d2) by (field; lra).
  replace (n2 / d2 * (d1 * d2)) with (n2 * d1) by (field; lra).
  assert (n1 * (d2 - d1) < d1 * (n2 - n1)).
  { apply Rle_lt_trans with (n1 * (Rmax b 0)).
    - apply Rmult_le_compat_l; [lra|]. pose proof (Rmax_l b 0). lra.
    - apply Rle_lt_trans with (1250 * d1 * Rmax b 0).
      + apply Rmult_le_compat_r; [apply Rmax_r|exact U].
      + apply Rlt_le_trans with (d1 * a); [|apply Rmult_le_compat_l; lra].
        replace (1250 * d1 * Rmax b 0) with (d1 * (1250 * Rmax b 0)) by ring.
        apply Rmult_lt_compat_l; [exact P1|]. unfold Rmax. destruct (Rle_dec b 0); lra. }
  lra.
Qed.
Theorem C57_salinity_increases_density : forall s1 s2 th p rho0,
  0 <= s1 -> s1 < s2 -> s2 <= 42 -> 0 <= th <= 40 -> 0 <= p <= 10000 ->
  jackett_compute_rho s1 th p rho0 < jackett_compute_rho s2 th p rho0.
Proof.
  intros s1 s2 th p rho0 H1 H12 H2 Ht Hp. unfold jackett_compute_rho. rewrite !Rmax_left by lra.
  unfold jackett_eval.
  pose proof (C57_denominator s1 th p ltac:(lra) Ht Hp) as D1.
  pose proof (C57_denominator s2 th p ltac:(lra) Ht Hp) as D2.
  destruct (density_bound s1 th p ltac:(lra) Ht Hp) as (N1 & U1).
  set (d := s2 - s1). assert (Hd : 0 < d) by (unfold d; lra).
  enough (jackett_pn s1 th p / jackett_pd s1 th p < jackett_pn s2 th p / jackett_pd s2 th p) by lra.
  destruct Ht as [Ht1 Ht2]. destruct Hp as [Hp1 Hp2].
  assert (T2 : 0 <= th * th <= 1600) by (split; [apply Rmult_le_pos; lra|]; replace 1600 with (40 * 40) by lra; apply Rmult_le_compat; lra).
  assert (T3 : 0 <= th * th * th) by (apply Rmult_le_pos; lra).
  apply (quotient_increases _ _ _ _ (2.31 * d) (1.845e-3 * d)); try lra.
  - replace (jackett_pn s2 th p - jackett_pn s1 th p)
      with ((ja 4 + th * ja 5 + (s1 + s2) * ja 6 + p * ja 9) * d) by (unfold jackett_pn, d; ring).
    apply Rmult_le_compat_r; [lra|]. unfold ja; cbn [nth]. lra.
  - replace (jackett_pd s2 th p - jackett_pd s1 th p)
      with ((jb 5 + th * jb 6 + th * th * th * jb 7) * d + (pow15 s2 - pow15 s1) * (jb 8 + th * th * jb 9))
      by (unfold jackett_pd, d; ring).
    assert (Q : 0 <= pow15 s2 - pow15 s1 <= 9.75 * d).
    { unfold pow15. set (r1 := sqrt s1). set (r2 := sqrt s2).
      assert (R1 : 0 <= r1) by apply sqrt_pos. assert (R12 : r1 <= r2) by (apply sqrt_le_1_alt; lra).
      assert (R2 : r2 <= 6.5) by (unfold r2; rewrite <- (sqrt_square 6.5) by lra; apply sqrt_le_1_alt; lra).
      assert (E1 : s1 = r1 * r1) by (unfold r1; rewrite sqrt_sqrt; lra).
      assert (E2 : s2 = r2 * r2) by (unfold r2; rewrite sqrt_sqrt; lra).
      unfold d. rewrite E1, E2. clearbody r1 r2.
      replace (r2 * r2 * r2 - r1 * r1 * r1) with ((r2 - r1) * (r2 * r2 + r2 * r1 + r1 * r1)) by ring.
      replace (9.75 * (r2 * r2 - r1 * r1)) with ((r2 - r1) * (9.75 * (r2 + r1))) by ring.
      assert (0 <= r2 * r2) by (apply Rmult_le_pos; lra). assert (0 <= r2 * r1) by (apply Rmult_le_pos; lra).
      assert (0 <= r1 * r1) by (apply Rmult_le_pos; lra).
      split; [apply Rmult_le_pos; lra|]. apply Rmult_le_compat_l; [lra|].
      assert (r2 * r2 <= 6.5 * r2) by (apply Rmult_le_compat_r; lra).
      assert (r2 * r1 <= 6.5 * r1) by (apply Rmult_le_compat_r; lra).
      assert (r1 * r1 <= r2 * r1) by (apply Rmult_le_compat_r; lra).
      assert (r1 * r1 <= 6.5 * r1) by lra.
      assert (r1 * (r2 - r1) >= 0) by (apply Rle_ge, Rmult_le_pos; lra).
      assert ((6.5 - r2) * (r2 - r1) >= 0) by (apply Rle_ge, Rmult_le_pos; lra). lra. }
    assert (K : 0 <= jb 8 + th * th * jb 9 <= 8.11e-6) by (unfold jb; cbn [nth]; lra).
    assert (L : jb 5 + th * jb 6 + th * th * th * jb 7 <= 1.7633e-3) by (unfold jb; cbn [nth]; lra).
    set (k := jb 8 + th * th * jb 9) in *. set (l := jb 5 + th * jb 6 + th * th * th * jb 7) in *. clearbody k l.
    assert (l * d <= 1.7633e-3 * d) by (apply Rmult_le_compat_r; lra).
    assert ((pow15 s2 - pow15 s1) * k <= 9.75 * d * 8.11e-6) by (apply Rmult_le_compat; lra). lra.
Qed.
Theorem C57_pressure_increases_density : forall s th p1 p2 rho0,
  0 <= s <= 42 -> 0 <= th <= 40 -> 0 <= p1 -> p1 < p2 -> p2 <= 10000 ->
  jackett_compute_rho s th p1 rho0 < jackett_compute_rho s th p2 rho0.
Proof.
  intros s th p1 p2 rho0 Hs Ht H1 H12 H2. unfold jackett_compute_rho. rewrite !Rmax_left by lra.
  unfold jackett_eval.
  pose proof (C57_denominator s th p1 Hs Ht ltac:(lra)) as D1.
  pose proof (C57_denominator s th p2 Hs Ht ltac:(lra)) as D2.
  destruct (density_bound s th p1 Hs Ht ltac:(lra)) as (N1 & U1).
  set (d := p2 - p1). assert (Hd : 0 < d) by (unfold d; lra).
  enough (jackett_pn s th p1 / jackett_pd s th p1 < jackett_pn s th p2 / jackett_pd s th p2) by lra.
  destruct Ht as [Ht1 Ht2]. destruct Hs as [Hs1 Hs2].
  assert (T2 : 0 <= th * th <= 1600) by (split; [apply Rmult_le_pos; lra|]; replace 1600 with (40 * 40) by lra; apply Rmult_le_compat; lra).
  assert (T3 : 0 <= th * th * th) by (apply Rmult_le_pos; lra).
  assert (P2 : 0 <= (p1 + p2) * (th * th) <= 20000 * 1600) by (split; [apply Rmult_le_pos; lra|]; apply Rmult_le_compat; lra).
  assert (P3 : 0 <= (p1 + p2) * (th * th * th)) by (apply Rmult_le_pos; lra).
  assert (P4 : 0 <= (p1 * p1 + p1 * p2 + p2 * p2) * th).
  { apply Rmult_le_pos; [|exact Ht1]. assert (0 <= p1 * p1) by (apply Rmult_le_pos; lra).
    assert (0 <= p1 * p2) by (apply Rmult_le_pos; lra). assert (0 <= p2 * p2) by (apply Rmult_le_pos; lra). lra. }
  apply (quotient_increases _ _ _ _ (1.1e-2 * d) (6.8e-6 * d)); try lra.
  - replace (jackett_pn s th p2 - jackett_pn s th p1)
      with ((ja 7 + th * th * ja 8 + s * ja 9 + (p1 + p2) * ja 10 + (p1 + p2) * (th * th) * ja 11) * d)
      by (unfold jackett_pn, d; ring).
    apply Rmult_le_compat_r; [lra|]. unfold ja; cbn [nth]. lra.
  - replace (jackett_pd s th p2 - jackett_pd s th p1)
      with ((jb 10 + (p1 + p2) * (th * th * th) * jb 11 + (p1 * p1 + p1 * p2 + p2 * p2) * th * jb 12) * d)
      by (unfold jackett_pd, d; ring).
    apply Rmult_le_compat_r; [lra|]. unfold jb; cbn [nth]. lra.
Qed.

(** ** C57: the weak solver never passes a negative salinity to the equation of state: with
    a projection that takes the values at the nodes it computes the density of the clipped
    salinity. *)
Theorem C57_weak_solver_density : forall n project e rho0 w i,
  (forall f s t, project f s t = map (fun i => f (at_node s i) (at_node t i)) (seq 0 n)) ->
  (i < n)%nat ->
  nth i (wt_rho (weak_solve project e rho0 w)) 0
  = compute_rho e (Rmax (at_node (wt_salt w) i) 0) (at_node (wt_temp w) i) 0 rho0.
Proof.
  intros n project e rho0 w i Hp Hi.
  pose proof (C57_weak_solver_salinity project e rho0 w i) as S.
  unfold weak_solve in *. cbn [wt_rho wt_salt] in *. rewrite Hp.
  set (F := fun i => eos_eval e (at_node (ensure_positive_salinity (wt_salt w)) i) (at_node (wt_temp w) i) 0 rho0).
  transitivity (nth i (map F (seq 0 n)) (F 0%nat));
    [apply nth_indep; rewrite map_length, seq_length; exact Hi|].
  rewrite map_nth, seq_nth by exact Hi. unfold F. cbn [Nat.add]. rewrite S.
  destruct e as [|l]; [|reflexivity].
  cbn [eos_eval compute_rho]. unfold jackett_compute_rho. rewrite (Rmax_left (Rmax _ 0)) by apply Rmax_r. reflexivity.
Qed.

(** ** C53: between a light breeze and a hurricane every formula gives a drag coefficient of
    the usual size. *)
Theorem C53_drag_range : forall method m cd, 1 <= m <= 40 ->
  drag_coefficient method m = Some cd -> 6e-4 <= cd <= 3.3e-3.
Proof.
  intros method m cd Hm H. unfold drag_coefficient in H.
  destruct (String.eqb method "LargePond1981").
  { apply some_inj in H. subst cd. destruct (Rgt_dec m 11); lra. }
  destruct (String.eqb method "SmithBanke1975").
  { apply some_inj in H. subst cd. lra. }
  destruct (String.eqb method "LargeYeager2009"); [|discriminate].
  apply some_inj in H. subst cd. destruct (Rgt_dec m 33) as [G|G]; [lra|].
  assert (M2 : 0 <= m ^ 2 <= 33 ^ 2) by (split; [apply pow_le; lra|apply pow_incr; lra]).
  assert (M6 : 0 <= m ^ 6 <= 33 ^ 5 * m).
  { split; [apply pow_le; lra|]. replace (m ^ 6) with (m ^ 5 * m) by ring. apply Rmult_le_compat_r; [lra|]. apply pow_incr. lra. }
  assert (X : 0 < 2.7 / (m + 1e-3) <= 2.7).
  { split; [apply Rdiv_lt_0_compat; lra|]. apply (Rmult_le_reg_r (m + 1e-3)); [lra|].
    replace (2.7 / (m + 1e-3) * (m + 1e-3)) with 2.7 by (field; lra). lra. }
  assert (Y : 2.7 / (m + 1e-3) >= 0.8 - 0.06 * (m + 1e-3)).
  { apply Rle_ge. apply (Rmult_le_reg_r (m + 1e-3)); [lra|].
    replace (2.7 / (m + 1e-3) * (m + 1e-3)) with 2.7 by (field; lra).
    pose proof (pow2_ge_0 (m + 1e-3 - 20 / 3)). lra. }
  assert (Z : 2.7 / (m + 1e-3) <= 2.78 - 0.0796 * m).
  { apply (Rmult_le_reg_r (m + 1e-3)); [lra|].
    replace (2.7 / (m + 1e-3) * (m + 1e-3)) with 2.7 by (field; lra).
    assert (0 <= (m - 1) * (33 - m)) by (apply Rmult_le_pos; lra). lra. }
  lra.
Qed.
Example C53_drag_range_example : drag_coefficient "LargeYeager2009" 10 <> None /\ 1 <= 10 <= 40.
Proof. split; [discriminate|lra]. Qed.

Print Assumptions C57_check_values.
Print Assumptions C57_salinity_increases_density.
Print Assumptions C57_pressure_increases_density.
Print Assumptions C57_weak_solver_density.
Print Assumptions C53_drag_range.
