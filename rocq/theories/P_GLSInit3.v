(** C69, continued: wall boundary conditions, the shared von Karman constant, failures
    and the tables of closures. *)
From Coq Require Import Reals String List Bool Lra Psatz.
From Verif Require Import Stability_Model P_Stability P_StabilitySets Turb_Model P_Turbulence
  GLSInit_Model P_GLSInit P_GLSInit2.
Import ListNotations.
Open Scope string_scope.
Open Scope R_scope.

(** The psi flux prescribed at the bottom, computed with the von Karman constant of the
    mean flow, is the diffusive flux of the law of the wall at the height z_b where it is
    prescribed, when both constants agree. *)
Theorem C69_wall_flux : forall num o vk o' vk' us (c : column) i z0,
  construct num o vk = Built o' vk' -> vk' = g_kappa o' ->
  0 < g_kappa o' -> g_n o <> 0 -> 0 < us -> 0 < 0.5 * h c i + z0 ->
  let zb := 0.5 * h c i + z0 in
  let psi := wall_psi us (g_kappa o') (g_cmu0 o') (g_p o') (g_m o') (g_n o') in
  let q := mkPsi (g_c1 o') (g_c2 o') (g_c3m o') (g_c3p o') (g_fwall o') (g_spsi o')
                 (g_p o') (g_m o') (g_n o') (g_cmu0 o') vk' z0 in
  ck c i = wall_k us (g_cmu0 o') -> visc c i = wall_visc us (g_kappa o') zb ->
  exists d, derivable_pt_lim psi zb d /\ wall_flux c q z0 i = wall_visc us (g_kappa o') zb / g_spsi o' * d.
Proof.
  intros num o vk o' vk' us c i z0 H Hv Hk Hn Hu Hz zb psi q Hck Hvi.
  exists (g_n o' * psi zb / zb). split; [apply derive_psi; assumption|].
  unfold wall_flux, q; cbn [pn schmidt_psi pcmu0 pp pm kappa]. fold zb. rewrite Hck, Hvi, Hv.
  unfold psi, wall_psi. rewrite (Rpower_mult_n (g_kappa o') zb) by assumption.
  replace (Rpower zb (g_n o')) with (Rpower zb (g_n o' - 1) * zb).
  - set (X := Rpower zb (g_n o' - 1)). set (Y := Rpower (g_kappa o') (g_n o')).
    set (Z := Rpower (wall_k us (g_cmu0 o')) (g_m o')). set (W := Rpower (g_cmu0 o') (g_p o')).
    replace (g_n o' * (W * Z * (Y * (X * zb))) / zb) with (g_n o' * (W * Z * (Y * X))) by (field; unfold zb; lra).
    ring.
  - rewrite <- (Rpower_1 zb Hz) at 2. rewrite <- Rpower_plus. f_equal. ring.
Qed.

(** With the neutral value of cmu0 the stability function returns, on the law of the
    wall, exactly the eddy viscosity of the law of the wall. *)
Theorem C69_wall_viscosity : forall num o vk o' vk' c us z,
  construct num o vk = Built o' vk' -> f_cmu0 o = true ->
  stability (g_stability o) = Some c ->
  (d2 c - n0 c) ^ 2 - 4 * (d5 c - n2 c) * d0 c >= 0 ->
  eval_den c 0 (cmu0_alpha_shear c) <> 0 -> cmu0_alpha_shear c > 0 ->
  0 < g_kappa o' -> 0 < us -> 0 < z ->
  let k := wall_k us (g_cmu0 o') in let eps := wall_eps us (g_kappa o') z in
  let alpha := k ^ 2 / eps ^ 2 * wall_shear us (g_kappa o') z ^ 2 in
  sqrt k * (g_kappa o' * z) * fst (eval_funcs c 0 alpha) / g_cmu0 o' ^ 3
  = wall_visc us (g_kappa o') z.
Proof.
  intros num o vk o' vk' c us z H F Ec HD Hden Hx Hk Hu Hz k eps alpha.
  destruct (construct_fields num o vk o' vk' H) as (c' & Ec' & _ & _ & P1 & _).
  rewrite Ec in Ec'. assert (c' = c) by (injection Ec' as E; symmetry; exact E). subst c'.
  rewrite F in P1. destruct P1 as (Hd & Hcm & Hp).
  destruct (C39_cmu0 c Hd HD Hden Hx) as (_ & E4 & E1 & _). rewrite <- Hcm in *.
  set (cm := g_cmu0 o') in *.
  assert (Ea : alpha = cmu0_alpha_shear c).
  { apply (Rmult_eq_reg_l (cm ^ 4)); [rewrite E1|apply Rgt_not_eq, pow_lt; exact Hp].
    unfold alpha, k, eps, wall_k, wall_eps, wall_shear. field. repeat split; lra. }
  rewrite Ea, <- E4. unfold k, wall_k.
  replace (us ^ 2 / cm ^ 2) with ((us / cm) * (us / cm)) by (field; lra).
  rewrite sqrt_square by (left; apply Rmult_lt_0_compat; [lra|apply Rinv_0_lt_compat; lra]).
  unfold wall_visc. field. lra.
Qed.
(** the hypotheses on the stability function hold for Canuto A *)
Example C69_canuto_A_admissible : let c := canuto_coeffs canutoA in
  stability "Canuto A" = Some c /\ (d2 c - n0 c) ^ 2 - 4 * (d5 c - n2 c) * d0 c >= 0
  /\ eval_den c 0 (cmu0_alpha_shear c) <> 0 /\ cmu0_alpha_shear c > 0 /\ d5 c - n2 c <> 0.
Proof.
  set (c := canuto_coeffs canutoA).
  assert (HS : 32.29725 <= sqrt ((d2 c - n0 c) ^ 2 - 4 * (d5 c - n2 c) * d0 c) <= 32.29726)
    by (apply sqrt_between; unfold c; coeff; lra).
  assert (HX : 12.96 < cmu0_alpha_shear c < 12.963).
  { unfold cmu0_alpha_shear. cbv zeta. set (q := sqrt _) in *. clearbody q.
    assert (Hp : d5 c - n2 c > 0) by (unfold c; coeff; lra).
    split; (apply (Rmult_lt_reg_r (d5 c - n2 c)); [exact Hp|]);
    match goal with |- context [?e / (d5 c - n2 c) * (d5 c - n2 c)] =>
      replace (e / (d5 c - n2 c) * (d5 c - n2 c)) with e by (field; apply Rgt_not_eq; exact Hp) end;
    unfold c; coeff; lra. }
  cbv zeta. split; [reflexivity|]. split; [unfold c; coeff; lra|]. split; [|split; [lra|]].
  - apply Rgt_not_eq. set (x := cmu0_alpha_shear c) in *. clearbody x. unfold eval_den, c. coeff. nra.
  - apply Rgt_not_eq. unfold c; coeff; lra.
Qed.

(** * The von Karman constant *)
Theorem C69_kappa_shared : forall num o vk o' vk', construct num o vk = Built o' vk' ->
  (f_kappa o = true -> vk' = g_kappa o'
     /\ g_kappa o' = g_cmu0 o' / Rabs (g_n o) * sqrt (g_spsi o * (g_c2 o - g_c1 o)))
  /\ (f_kappa o = false -> vk' = vk).
Proof.
  intros num o vk o' vk' H.
  destruct (construct_fields num o vk o' vk' H) as (c & Ec & _ & _ & _ & P2 & _).
  split; intro F; rewrite F in P2; destruct P2 as (A & B & _); [|exact B].
  split; [exact B|]. rewrite A. reflexivity.
Qed.
(** the constant of the closure is then not the one of the mean flow *)
Theorem C69_one_kappa_refuted : exists o o' vk', forall num,
  f_spsi o = true /\ construct num o 0.4 = Built o' vk' /\ g_kappa o' <> vk'.
Proof.
  set (o := mkOpts "k-epsilon" "Canuto A" 3 1.5 (-1) 1 1.3 0.5477 1.44 1.92 (-0.52) 1 1 0.25 0.41
         1e-6 1e-14 1e-14 1e-12 0.30 false false false true false false false).
  exists o, (set_spsi o (compute_sigma_psi 0.41 0.5477 (-1) 1.44 1.92)), 0.4.
  intro num. split; [reflexivity|]. split.
  - unfold construct, with_cmu0, with_kappa. cbn [g_stability o stability String.eqb Ascii.eqb Bool.eqb f_cmu0 f_kappa f_spsi g_kappa g_cmu0 g_n g_c1 g_c2].
    rewrite positive_true; [reflexivity|]. unfold compute_sigma_psi.
    apply Rmult_lt_0_compat; [lra|apply Rinv_0_lt_compat; lra].
  - unfold o, set_spsi; cbn. lra.
Qed.

(** In a program that builds several models the mean flow ends with the constant of the
    last one that computed it. *)
Theorem C69_program_kappa : forall num os vk built vk', program num os vk = Some (built, vk') ->
  List.length built = List.length os
  /\ ((forall o, In o os -> f_kappa o = false) -> vk' = vk)
  /\ (forall pre b post, built = (pre ++ b :: post)%list -> f_kappa b = true ->
        (forall b', In b' post -> f_kappa b' = false) -> vk' = g_kappa b).
Proof.
  intros num os. induction os as [|o r IH]; intros vk built vk' H; cbn in H.
  - inversion H; subst. split; [reflexivity|]. split; [reflexivity|].
    intros pre b post E. destruct pre; discriminate.
  - destruct (construct num o vk) as [o1 vk1|] eqn:E1; [|discriminate].
    destruct (program num r vk1) as [[l v]|] eqn:E2; [|discriminate].
    assert (Hb : built = o1 :: l) by congruence. assert (Hv : vk' = v) by congruence. subst built vk'. clear H.
    destruct (IH vk1 l v E2) as (L & K1 & K2).
    destruct (construct_fields num o vk o1 vk1 E1) as (c & _ & _ & (_ & _ & F3 & _) & _ & P2 & _).
    split; [cbn; rewrite L; reflexivity|]. split.
    + intros A. rewrite K1 by (intros x Hx; apply A; right; exact Hx).
      rewrite (A o (or_introl eq_refl)) in P2. apply P2.
    + intros pre b post E Fb Fp. destruct pre as [|x pre].
      * cbn in E. inversion E; subst. rewrite Fb in F3. rewrite <- F3 in P2.
        destruct P2 as (_ & Hk & _). rewrite <- Hk. 
        (* every later model leaves the constant alone *)
        clear K2 IH. revert vk1 v E2 E1 Hk K1 L Fp. generalize dependent r.
        intros r vk1 v E2 E1 Hk K1 L Fp. apply K1.
        intros o2 Ho2. clear - E2 Ho2 Fp.
        revert vk1 post v E2 Ho2 Fp. induction r as [|o3 r IH]; intros vk1 post v E2 Ho2 Fp; [destruct Ho2|].
        cbn in E2. destruct (construct num o3 vk1) as [o4 vk4|] eqn:E4; [|discriminate].
        destruct (program num r vk4) as [[l4 v4]|] eqn:E5; [|discriminate].
        assert (Hp : post = o4 :: l4) by congruence. subst post.
        destruct (construct_fields num o3 vk1 o4 vk4 E4) as (c & _ & _ & (_ & _ & F3 & _) & _).
        destruct Ho2 as [->|Ho2]; [rewrite <- F3; apply Fp; left; reflexivity|].
        apply (IH vk4 l4 v4 E5 Ho2). intros b' Hb'. apply Fp. right; exact Hb'.
      * cbn in E. inversion E; subst. apply (K2 pre b post); [reflexivity|exact Fb|exact Fp].
Qed.
(** so an earlier model and the mean flow disagree afterwards *)
Theorem C69_earlier_model_kappa_refuted : exists os built vk' b, forall num,
  program num os 0.4 = Some (built, vk') /\ In b built /\ f_kappa b = true /\ g_kappa b <> vk'.
Proof.
  set (mk := fun s => mkOpts "k-epsilon" "Canuto A" 3 1.5 (-1) 1 s 1 1 2 (-0.52) 1 1 0.25 0.4
         1e-6 1e-14 1e-14 1e-12 0.30 false false true true false false false).
  exists [mk 4; mk 9], [set_kappa (mk 4) (compute_kappa 4 1 (-1) 1 2); set_kappa (mk 9) (compute_kappa 9 1 (-1) 1 2)],
    (compute_kappa 9 1 (-1) 1 2), (set_kappa (mk 4) (compute_kappa 4 1 (-1) 1 2)).
  intro num. split; [reflexivity|]. split; [left; reflexivity|]. split; [reflexivity|].
  unfold set_kappa, mk; cbn [g_kappa]. unfold compute_kappa.
  replace (Rabs (-1)) with 1 by (rewrite Rabs_left; lra).
  replace (4 * (2 - 1)) with (2 * 2) by ring. replace (9 * (2 - 1)) with (3 * 3) by ring.
  rewrite !sqrt_square by lra. lra.
Qed.

(** * Minimum values *)
Theorem C69_minimum_values : forall num o vk o' vk', construct num o vk = Built o' vk' ->
  valid o -> g_n o <> 0 ->
  (f_psimin o = true -> eps_of_psi (gls_of o') (g_kmin o') (g_psimin o') = g_epsmin o')
  /\ (f_lenmin o = true -> g_epsmin o' = g_cmu0 o' ^ 3 * Rpower (g_kmin o') (3 / 2) / g_lenmin o').
Proof.
  intros num o vk o' vk' H V Hn.
  destruct (construct_fields num o vk o' vk' H) as (c & Ec & (E1 & E2 & E3 & E4 & E5 & E6 & E7 & E8 & E9 & E10
    & E11 & E12 & E13) & _ & P1 & P2 & P3 & P4 & P5 & _).
  assert (Hcm : 0 < g_cmu0 o').
  { destruct (f_cmu0 o); [destruct P1 as (_ & -> & A); exact A|rewrite P1; apply V]. }
  assert (Hk : 0 < g_kmin o) by apply V. assert (He : 0 < g_epsmin o) by apply V.
  rewrite E12, E13. split; intro F.
  - rewrite F in P4. destruct P4 as [P4 _]. rewrite P4. apply C40_psi_eps_round_trip; try assumption.
    cbn. rewrite E5. exact Hn.
  - rewrite F in P5. destruct P5 as [P5 Hl]. rewrite P5. unfold len_of. cbn [gls_of o_cmu0].
    pose proof (Rpower_pos (g_kmin o) (3 / 2)). field. repeat split; lra.
Qed.

(** * Failures *)
(** The Kantha-Clayson stability function is offered but the default way of computing
    cmu0 refuses it. *)
Theorem C69_every_stability_function_refuted : forall num o vk,
  g_stability o = "Kantha-Clayson" -> f_cmu0 o = true -> construct num o vk = Failed.
Proof.
  intros num o vk E F. unfold construct. rewrite E. cbn [stability String.eqb Ascii.eqb Bool.eqb].
  unfold with_cmu0. rewrite F. destruct (Req_EM_T _ 0) as [|A]; [reflexivity|].
  exfalso. apply A. apply C39_cmu0_kantha_clayson_refuted.
Qed.
Theorem C69_rejected : forall num o vk,
  (~ In (g_stability o) ["Kantha-Clayson"; "Canuto A"; "Canuto B"; "Cheng"] -> construct num o vk = Failed)
  /\ (f_cmu0 o = false -> f_kappa o = false -> f_spsi o = true -> 0 < g_cmu0 o -> g_c2 o < g_c1 o ->
      construct num o vk = Failed).
Proof.
  intros num o vk. split.
  - intro A. unfold construct, stability.
    destruct (String.eqb_spec (g_stability o) "Kantha-Clayson") as [E|_]; [exfalso; apply A; left; symmetry; exact E|].
    destruct (String.eqb_spec (g_stability o) "Canuto A") as [E|_]; [exfalso; apply A; right; left; symmetry; exact E|].
    destruct (String.eqb_spec (g_stability o) "Canuto B") as [E|_]; [exfalso; apply A; right; right; left; symmetry; exact E|].
    destruct (String.eqb_spec (g_stability o) "Cheng") as [E|_]; [exfalso; apply A; right; right; right; left; symmetry; exact E|].
    reflexivity.
  - intros F1 F2 F3 Hc Hlt. unfold construct. destruct (stability _) as [c|]; [|reflexivity].
    unfold with_cmu0, with_kappa. rewrite F1, F2, F3. unfold positive.
    destruct (Rlt_dec 0 _) as [A|_]; [exfalso|reflexivity].
    unfold compute_sigma_psi in A.
    assert (B : 0 < g_cmu0 o ^ 2 * - (g_c2 o - g_c1 o)) by (apply Rmult_lt_0_compat; [apply pow_lt; exact Hc|lra]).
    assert (C : / (g_cmu0 o ^ 2 * (g_c2 o - g_c1 o)) < 0) by (apply Rinv_lt_0_compat; lra).
    pose proof (pow2_ge_0 (g_n o * g_kappa o)). unfold Rdiv in A. nra.
Qed.

(** * The tables of closures *)
Theorem C69_defaults_applied : forall closure o1 o2 a1 a2,
  apply_defaults closure o1 = Some a1 -> apply_defaults closure o2 = Some a2 ->
  (* the documented parameters depend on the name only *)
  (g_closure a1 = closure /\ g_closure a2 = closure)
  /\ (g_p a1 = g_p a2 /\ g_m a1 = g_m a2 /\ g_n a1 = g_n a2 /\ g_sk a1 = g_sk a2 /\ g_spsi a1 = g_spsi a2
      /\ g_cmu0 a1 = g_cmu0 a2 /\ g_c1 a1 = g_c1 a2 /\ g_c2 a1 = g_c2 a2 /\ g_c3p a1 = g_c3p a2
      /\ g_c3m a1 = g_c3m a2 /\ g_fwall a1 = g_fwall a2 /\ g_kmin a1 = g_kmin a2
      /\ g_psimin a1 = g_psimin a2 /\ g_epsmin a1 = g_epsmin a2)
  (* the other ones are kept *)
  /\ (g_stability a1 = g_stability o1 /\ g_ri a1 = g_ri o1 /\ g_kappa a1 = g_kappa o1
      /\ g_lenmin a1 = g_lenmin o1 /\ g_clim a1 = g_clim o1 /\ f_cmu0 a1 = f_cmu0 o1 /\ f_c3m a1 = f_c3m o1
      /\ f_kappa a1 = f_kappa o1 /\ f_spsi a1 = f_spsi o1 /\ f_clim a1 = f_clim o1
      /\ f_lenmin a1 = f_lenmin o1 /\ f_psimin a1 = f_psimin o1)
  (* and a model can be built from them: the constants are positive and c1 < c2, n <> 0 *)
  /\ (0 < g_cmu0 a1 /\ 0 < g_spsi a1 /\ 0 < g_sk a1 /\ g_c1 a1 < g_c2 a1 /\ g_n a1 < 0 /\ g_fwall a1 = 1).
Proof.
  intros closure o1 o2 a1 a2 H1 H2. unfold apply_defaults in *.
  destruct (String.eqb_spec closure "k-epsilon") as [->|_];
  [|destruct (String.eqb_spec closure "k-omega") as [->|_];
    [|destruct (String.eqb_spec closure "Generic Length Scale") as [->|_]; [|discriminate]]];
  (assert (E1 : a1 = match Some a1 with Some x => x | None => a1 end) by reflexivity;
   assert (E2 : a2 = match Some a2 with Some x => x | None => a2 end) by reflexivity;
   rewrite <- H1 in E1; rewrite <- H2 in E2; subst a1 a2; clear; unfold update;
   cbn [g_closure g_stability g_p g_m g_n g_sk g_spsi g_cmu0 g_c1 g_c2 g_c3m g_c3p g_fwall g_ri g_kappa g_kmin g_psimin g_epsmin g_lenmin g_clim f_cmu0 f_c3m f_kappa f_spsi f_clim f_lenmin f_psimin];
   repeat split; try reflexivity; lra).
Qed.
(** only the three names are accepted *)
Theorem C69_closure_names : forall closure o,
  (exists a, apply_defaults closure o = Some a) <->
  In closure ["k-epsilon"; "k-omega"; "Generic Length Scale"].
Proof.
  intros closure o. unfold apply_defaults.
  destruct (String.eqb_spec closure "k-epsilon") as [->|N1]; [split; [intros _; left; reflexivity|intros _; eexists; reflexivity]|].
  destruct (String.eqb_spec closure "k-omega") as [->|N2]; [split; [intros _; right; left; reflexivity|intros _; eexists; reflexivity]|].
  destruct (String.eqb_spec closure "Generic Length Scale") as [->|N3]; [split; [intros _; right; right; left; reflexivity|intros _; eexists; reflexivity]|].
  split; [intros [a A]; discriminate|]. intros [E|[E|[E|[]]]]; congruence.
Qed.
(** the tables give psi its meaning: epsilon for k-epsilon, and the turbulence frequency
    for k-omega, epsilon = cmu0^4 k omega *)
Theorem C69_closure_meaning : forall o k psi, 0 < k -> 0 < psi ->
  (forall a, apply_defaults "k-epsilon" o = Some a -> eps_of_psi (gls_of a) k psi = psi)
  /\ (forall a, apply_defaults "k-omega" o = Some a -> eps_of_psi (gls_of a) k psi = g_cmu0 a ^ 4 * k * psi).
Proof.
  intros o k psi Hk Hp. split; intros a H; unfold apply_defaults in H; cbn [String.eqb Ascii.eqb Bool.eqb] in H;
  (assert (E : a = match Some a with Some x => x | None => a end) by reflexivity;
   rewrite <- H in E; subst a; clear H).
  - apply C40_k_epsilon; unfold gls_of, update; cbn [o_cmu0 o_p o_n o_m g_p g_m g_n g_cmu0]; lra.
  - unfold eps_of_psi, gls_of, update; cbn [o_cmu0 o_p o_n o_m g_p g_m g_n g_cmu0].
    replace (3 + -1 / -1) with (INR 4) by (simpl; lra).
    replace (3 / 2 + 0.5 / -1) with 1 by lra. replace (-1 / -1) with 1 by lra.
    rewrite Rpower_pow by lra. rewrite !Rpower_1 by assumption. reflexivity.
Qed.
(** setting the name of the closure is not enough: the model is still k-epsilon *)
Theorem C69_closure_name_refuted : forall k psi, 0 < k -> 0 < psi ->
  let o := set_closure defaults "k-omega" in
  g_closure o = "k-omega" /\ eps_of_psi (gls_of o) k psi = psi.
Proof.
  intros k psi Hk Hp o. split; [reflexivity|]. apply C40_k_epsilon; unfold o; cbn; lra.
Qed.

(** * The default model *)
Example C69_default_model : forall num, exists o',
  apply_defaults "k-epsilon" defaults = Some defaults
  /\ construct num defaults 0.4 = Built o' 0.4 /\ valid defaults
  /\ 0.527 < g_cmu0 o' < 0.5271 /\ 1.19 < g_spsi o' < 1.21 /\ g_kappa o' = 0.4.
Proof.
  intro num. pose proof C39_cmu0_canuto_A as HC. destruct C69_canuto_A_admissible as (_ & _ & _ & _ & Hd).
  set (cm := compute_cmu0 (canuto_coeffs canutoA)) in *.
  set (s := compute_sigma_psi 0.4 cm (-1) 1.44 1.92).
  assert (Es : s * (cm * cm * 0.48) = 0.16) by (unfold s, compute_sigma_psi; replace 1.92 with (192/100) by lra; replace 1.44 with (144/100) by lra; replace 0.4 with (4/10) by lra; replace 0.48 with (48/100) by lra; replace 0.16 with (16/100) by lra; field; lra).
  assert (Hs : 1.19 < s < 1.21).
  { assert (0.277729 < cm * cm < 0.27783441) by nra. split; nra. }
  set (c := canuto_coeffs canutoA) in *.
  assert (HL : 0 < compute_length_clim c cm 0.25).
  { unfold compute_length_clim. apply Rmult_lt_0_compat; [apply pow_lt; lra|]. apply sqrt_lt_R0.
    assert (HX : 0 < compute_alpha_shear_steady c (1 / 4)).
    { unfold compute_alpha_shear_steady.
      assert (Ha : steady_a c (1 / 4) > 0) by (unfold steady_a, c; coeff; lra).
      assert (HS : 30 <= sqrt (steady_b c (1 / 4) ^ 2 - 4 * steady_a c (1 / 4) * steady_c c) <= 40)
        by (apply sqrt_between; unfold steady_a, steady_b, steady_c, c; coeff; lra).
      set (q := sqrt _) in *. clearbody q.
      apply (Rmult_lt_reg_r (steady_a c (1 / 4))); [exact Ha|].
      match goal with |- context [?e / steady_a c (1 / 4) * steady_a c (1 / 4)] =>
        replace (e / steady_a c (1 / 4) * steady_a c (1 / 4)) with e by (field; apply Rgt_not_eq; exact Ha) end;
      unfold steady_a, steady_b, c; coeff; lra. }
    replace 0.25 with (1 / 4) by lra. lra. }
  eexists. split; [reflexivity|]. split.
  - unfold construct, with_cmu0, with_kappa, with_rest.
    cbn [g_stability defaults stability String.eqb Ascii.eqb Bool.eqb f_cmu0].
    fold c. destruct (Req_EM_T (d5 c - n2 c) 0) as [A|_]; [contradiction|].
    fold cm. rewrite positive_true by lra. cbn. fold s. rewrite positive_true by lra. cbn.
    rewrite positive_true by exact HL. reflexivity.
  - cbn. split; [repeat split; cbn; lra|]. split; [lra|]. split; [exact Hs|reflexivity].
Qed.
Print Assumptions C69_law_of_the_wall.
Print Assumptions C69_program_kappa.
Print Assumptions C69_idempotent.
