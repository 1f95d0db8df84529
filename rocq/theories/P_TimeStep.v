(** C65: automatic time steps. *)
From Coq Require Import Reals List Bool Lia Lra ZArith Psatz.
From Verif Require Import Forms_Model Forms_Proofs TimeStep_Model.
Import ListNotations.
Open Scope R_scope.

(** ** Specification *)

(** A time step that no element forbids: over one step the advective distance and
    the diffusive length stay below the fraction of the element that the scheme
    allows. Products instead of quotients, so that a zero scale forbids nothing. *)
Record admissible (cx cz cd cfl u w nu : R) (hs vs : list R) (dt : R) : Prop := mk_adm
  { adm_h : forall h, In h hs -> dt * u <= cfl * (cx * h);
    adm_v : forall v, In v vs -> dt * w <= cfl * (cz * v);
    adm_d : forall h, In h hs -> dt * nu <= cfl * (cd * h) ^ 2 }.

(** Values spread over the processes, every process owning at least one. *)
Definition spread (ranks : list (list R)) (vals : list R) : Prop :=
  ranks <> [] /\ (forall l, In l ranks -> l <> []) /\
  forall x, In x (concat ranks) <-> In x vals.

(** ** Reductions *)
Lemma fold_min : forall l x, In (fold_left Rmin l x) (x :: l) /\
  forall y, In y (x :: l) -> fold_left Rmin l x <= y.
Proof.
  induction l as [|a l IH]; intros x; cbn [fold_left].
  - split; [left; reflexivity|]. intros y [E|[]]. subst. lra.
  - destruct (IH (Rmin x a)) as [I L]. split.
    + destruct I as [E|I].
      * rewrite <- E. unfold Rmin. destruct (Rle_dec x a); [left|right; left]; reflexivity.
      * right. right. exact I.
    + intros y [E|[E|I']].
      * subst y. apply Rle_trans with (Rmin x a); [apply L; left; reflexivity|apply Rmin_l].
      * subst y. apply Rle_trans with (Rmin x a); [apply L; left; reflexivity|apply Rmin_r].
      * apply L. right. exact I'.
Qed.

Lemma local_min_some : forall l, l <> [] ->
  exists m, local_min l = Some m /\ In m l /\ forall y, In y l -> m <= y.
Proof.
  intros [|x l] H; [contradiction|]. exists (fold_left Rmin l x).
  split; [reflexivity|]. apply fold_min.
Qed.

Lemma reduced_inf : forall ranks, (forall l, In l ranks -> l <> []) ->
  reduced_step (fun _ => PInf) ranks = Some PInf.
Proof.
  intros ranks H. unfold reduced_step.
  assert (G : exists ms, local_steps (fun _ => PInf) ranks = Some ms /\ forall e, In e ms -> e = PInf).
  { induction ranks as [|l r IH]; [exists []; split; [reflexivity|intros e []]|].
    destruct (local_min_some l (H l (or_introl eq_refl))) as (m & E & _).
    destruct IH as (ms & E' & A); [intros l' I; apply H; right; exact I|].
    exists (PInf :: ms). cbn [local_steps]. rewrite E, E'. split; [reflexivity|].
    intros e [Q|Q]; [symmetry; exact Q|apply A; exact Q]. }
  destruct G as (ms & E & A). rewrite E. f_equal. clear E.
  induction ms as [|e ms IH]; [reflexivity|]. cbn [fold_right].
  rewrite (A e (or_introl eq_refl)). cbn [emin]. apply IH. intros e' I. apply A. right. exact I.
Qed.

(** The reduction with a monotone [k] is attained at one value and is a lower
    bound for all of them. *)
Lemma reduced_fin : forall (k : R -> R) (P : R -> Prop) ranks,
  (forall x y, P x -> P y -> x <= y -> k x <= k y) ->
  ranks <> [] -> (forall l, In l ranks -> l <> []) ->
  (forall x, In x (concat ranks) -> P x) ->
  exists d, reduced_step (fun m => Fin (k m)) ranks = Some (Fin d) /\
    (exists x, In x (concat ranks) /\ d = k x) /\
    forall y, In y (concat ranks) -> d <= k y.
Proof.
  intros k P ranks Hk. unfold reduced_step.
  induction ranks as [|l r IH]; [intros H; contradiction|]. intros _ Hne HP.
  destruct (local_min_some l (Hne l (or_introl eq_refl))) as (m & E & I & L).
  assert (Pm : P m) by (apply HP; cbn; apply in_or_app; left; exact I).
  assert (Pl : forall y, In y l -> k m <= k y).
  { intros y Iy. apply Hk; [exact Pm| |apply L; exact Iy].
    apply HP. cbn. apply in_or_app. left. exact Iy. }
  cbn [local_steps]. rewrite E. destruct r as [|l' r'].
  - cbn. exists (k m). split; [reflexivity|]. rewrite app_nil_r. split.
    + exists m. split; [exact I|reflexivity].
    + exact Pl.
  - destruct IH as (d & E' & (x & Ix & Ex) & Ld).
    + discriminate.
    + intros l0 I0. apply Hne. right. exact I0.
    + intros y Iy. apply HP. cbn [concat] in *. apply in_or_app. right. exact Iy.
    + destruct (local_steps (fun m0 => Fin (k m0)) (l' :: r')) as [ms|] eqn:Ems; [|discriminate E'].
      assert (E'' : fold_right emin PInf ms = Fin d) by congruence.
      cbn [fold_right]. rewrite E''. cbn [emin]. exists (Rmin (k m) d).
      split; [reflexivity|]. split.
      * unfold Rmin. destruct (Rle_dec (k m) d).
        -- exists m. split; [cbn; apply in_or_app; left; exact I|reflexivity].
        -- exists x. split; [|exact Ex]. cbn [concat]. apply in_or_app. right. exact Ix.
      * intros y Iy. change (concat (l :: l' :: r')) with (l ++ concat (l' :: r'))%list in Iy.
        apply in_app_or in Iy. destruct Iy as [Iy|Iy].
        -- apply Rle_trans with (k m); [apply Rmin_l|apply Pl; exact Iy].
        -- apply Rle_trans with d; [apply Rmin_r|apply Ld; exact Iy].
Qed.

Lemma ceil_spec r : IZR (ceil r) - 1 < r <= IZR (ceil r).
Proof.
  unfold ceil. destruct (archimed (- r)) as [A B]. rewrite minus_IZR. split; lra.
Qed.

Lemma reduced_ext g g' : forall ranks, (forall m, g m = g' m) ->
  reduced_step g ranks = reduced_step g' ranks.
Proof.
  intros ranks H. unfold reduced_step. replace (local_steps g' ranks) with (local_steps g ranks); [reflexivity|].
  induction ranks as [|l r IH]; [reflexivity|]. cbn [local_steps].
  destruct (local_min l); [|reflexivity]. rewrite IH, H. reflexivity.
Qed.

(** One limit: infinite for a zero scale, otherwise the smallest quotient. *)
Lemma limit_spec : forall (k : R -> R) (u : R) ranks vals,
  0 <= u -> spread ranks vals -> (forall x, In x vals -> 0 < x) ->
  (forall x y, 0 < x -> 0 < y -> x <= y -> k x <= k y) ->
  exists e, reduced_step (fun m => ediv (k m) u) ranks = Some e /\
    match e with
    | PInf => u = 0
    | Fin d => 0 < u /\ (exists x, In x vals /\ d * u = k x) /\ forall y, In y vals -> d * u <= k y
    end.
Proof.
  intros k u ranks vals Hu (Hn & Hl & Hi) Hpos Hk.
  destruct (Req_EM_T u 0) as [Z|Z].
  - exists PInf. split; [|exact Z]. rewrite (reduced_ext _ (fun _ => PInf)).
    + apply reduced_inf. exact Hl.
    + intros m. unfold ediv. destruct (Req_EM_T u 0); [reflexivity|contradiction].
  - assert (P : 0 < u) by lra.
    destruct (reduced_fin (fun m => k m / u) (fun x => 0 < x) ranks) as (d & E & (x & Ix & Ex) & L).
    + intros a b Ha Hb Hab. unfold Rdiv. apply Rmult_le_compat_r; [left; apply Rinv_0_lt_compat; exact P|].
      apply Hk; assumption.
    + exact Hn.
    + exact Hl.
    + intros y Iy. apply Hpos. apply Hi. exact Iy.
    + exists (Fin d). split.
      * rewrite <- E. apply reduced_ext. intros m. unfold ediv.
        destruct (Req_EM_T u 0); [contradiction|reflexivity].
      * split; [exact P|]. split.
        -- exists x. split; [apply Hi; exact Ix|]. rewrite Ex. field. exact Z.
        -- intros y Iy. apply Hi in Iy. specialize (L y Iy).
           apply Rmult_le_compat_r with (r := u) in L; [|lra].
           replace (k y / u * u) with (k y) in L by (field; exact Z). exact L.
Qed.

(** ** Factors *)
Lemma lr_pos q : 0 <= q -> 0 < q ^ 2 / 3 + 7 / 6 * q + 1.
Proof. intros H. nra. Qed.

(** dx_factor is 3/(8q^2 + 28q + 24) with q the degree of the velocity space, and
    dz_factor is max(p, 1)/8. *)
Theorem C65_factors : forall p,
  dx_factor DGDG p = 3 / (8 * INR p ^ 2 + 28 * INR p + 24) /\
  dx_factor RTDG p = dx_factor DGDG (S p) /\ dx_factor BDMDG p = dx_factor DGDG (S p) /\
  dz_factor p = INR (Nat.max p 1) / 8.
Proof.
  intros p. pose proof (pos_INR p) as Hp.
  split; [|split; [|split]].
  - unfold dx_factor.
    assert (D : 0 < INR p ^ 2 / 3 + 7 / 6 * INR p + 1) by (apply lr_pos; exact Hp).
    replace (8 * INR p ^ 2 + 28 * INR p + 24) with (24 * (INR p ^ 2 / 3 + 7 / 6 * INR p + 1)) by field.
    set (l := INR p ^ 2 / 3 + 7 / 6 * INR p + 1) in *. field. lra.
  - unfold dx_factor. rewrite S_INR. reflexivity.
  - unfold dx_factor. rewrite S_INR. reflexivity.
  - unfold dz_factor. assert (H : INR (Nat.max p 1) <> 0) by (apply not_0_INR; lia).
    field. exact H.
Qed.
Print Assumptions C65_factors.

Lemma dx_factor_pos fam p : 0 < dx_factor fam p.
Proof.
  assert (A : forall n, 0 < dx_factor DGDG n).
  { intros n. destruct (C65_factors n) as (E & _). rewrite E. pose proof (pos_INR n) as Hn.
    apply Rdiv_lt_0_compat; [lra|nra]. }
  destruct fam; [| |apply A]; destruct (C65_factors p) as (_ & E & E' & _); rewrite ?E, ?E'; apply A.
Qed.

Lemma dz_factor_pos p : 0 < dz_factor p.
Proof.
  destruct (C65_factors p) as (_ & _ & _ & E). rewrite E.
  assert (0 < INR (Nat.max p 1)) by (apply lt_0_INR; lia). lra.
Qed.

(** Higher degree, smaller horizontal step ... *)
Theorem C65_horizontal_degree : forall fam p q, (p < q)%nat -> dx_factor fam q < dx_factor fam p.
Proof.
  assert (A : forall p q, (p < q)%nat -> dx_factor DGDG q < dx_factor DGDG p).
  { intros p q H. destruct (C65_factors p) as (Ep & _). destruct (C65_factors q) as (Eq & _).
    rewrite Ep, Eq. pose proof (pos_INR p) as Hp. apply lt_INR in H.
    unfold Rdiv. apply Rmult_lt_compat_l; [lra|]. apply Rinv_lt_contravar; [|nra].
    apply Rmult_lt_0_compat; nra. }
  intros fam p q H. destruct fam; [| |apply A; exact H];
    destruct (C65_factors p) as (_ & E & E' & _); destruct (C65_factors q) as (_ & F & F' & _);
    rewrite ?E, ?F, ?E', ?F'; apply A; lia.
Qed.
Print Assumptions C65_horizontal_degree.

(** ... but the vertical factor grows with the degree: for degree 2 the vertical
    step is twice as long as for degree 1. *)
Theorem C65_vertical_degree_refuted :
  (forall p, (1 <= p)%nat -> dz_factor p < dz_factor (S p)) /\
  ~ (forall p q, (p < q)%nat -> dz_factor q <= dz_factor p).
Proof.
  assert (A : forall p, (1 <= p)%nat -> dz_factor p < dz_factor (S p)).
  { intros p H. destruct (C65_factors p) as (_ & _ & _ & E). destruct (C65_factors (S p)) as (_ & _ & _ & F).
    rewrite E, F. replace (Nat.max p 1) with p by lia. replace (Nat.max (S p) 1) with (S p) by lia.
    rewrite S_INR. lra. }
  split; [exact A|]. intros H. specialize (A 1%nat (le_n 1)). specialize (H 1%nat 2%nat (le_n 2)). lra.
Qed.
Print Assumptions C65_vertical_degree_refuted.

(** ** The 3D step *)
Section Step3d.
Variables (fam : family) (p : nat) (leapfrog : bool) (cfl u w nu T : R).
Hypothesis Hcfl : 0 < cfl.
Hypothesis Hu : 0 <= u.
Hypothesis Hw : 0 <= w.
Hypothesis Hnu : 0 <= nu.
Hypothesis HT : 0 < T.
Variables (hs vs : list R).
Hypothesis Hh : forall h, In h hs -> 0 < h.
Hypothesis Hv : forall v, In v vs -> 0 < v.

Let cx := dx_factor fam p.
Let cz := dz_factor p.
Let cd := diff_factor fam leapfrog * dx_factor fam p.
Let ok := admissible cx cz cd cfl u w nu hs vs.

Lemma cd_pos : 0 < cd.
Proof.
  unfold cd. apply Rmult_lt_0_compat; [|apply dx_factor_pos].
  unfold diff_factor. destruct fam, leapfrog; lra.
Qed.

(** The largest admissible step. *)
Lemma limit_3d : forall rh rv, spread rh hs -> spread rv vs ->
  exists e, escale cfl (match dt_h_advection fam p u rh, dt_v_advection p w rv,
                              dt_diffusion fam p leapfrog nu rh with
                        | Some a, Some b, Some c => emin a (emin b c) | _, _, _ => PInf end) = e /\
    (exists a b c, dt_h_advection fam p u rh = Some a /\ dt_v_advection p w rv = Some b /\
       dt_diffusion fam p leapfrog nu rh = Some c) /\
    match e with
    | PInf => u = 0 /\ w = 0 /\ nu = 0
    | Fin d => 0 < d /\ (0 < u \/ 0 < w \/ 0 < nu) /\ forall x, ok x <-> x <= d
    end.
Proof.
  intros rh rv Sh Sv.
  assert (Px : 0 < cx) by apply dx_factor_pos.
  assert (Pz : 0 < cz) by apply dz_factor_pos.
  assert (Pd : 0 < cd) by apply cd_pos.
  destruct (limit_spec (fun m => m * cx) u rh hs Hu Sh Hh) as (a & Ea & Sa).
  { intros x y _ _ L. apply Rmult_le_compat_r; lra. }
  destruct (limit_spec (fun m => m * cz) w rv vs Hw Sv Hv) as (b & Eb & Sb).
  { intros x y _ _ L. apply Rmult_le_compat_r; lra. }
  destruct (limit_spec (fun m => (m * cd) ^ 2) nu rh hs Hnu Sh Hh) as (c & Ec & Sc).
  { intros x y X Y L. apply pow_incr. split; [nra|]. apply Rmult_le_compat_r; lra. }
  exists (escale cfl (emin a (emin b c))). unfold dt_h_advection, dt_v_advection, dt_diffusion.
  fold cd. fold cx. fold cz.
  rewrite Ea, Eb, Ec. split; [reflexivity|]. split; [exists a, b, c; repeat split|].
  (* each limit as a statement about steps *)
  assert (La : forall x, (forall h, In h hs -> x * u <= cfl * (cx * h)) <->
                          match a with PInf => True | Fin d => x <= cfl * d end).
  { intros x. destruct a as [d|].
    - destruct Sa as (U & (y & Iy & Ey) & L). split.
      + intros H. specialize (H y Iy). apply Rmult_le_reg_r with u; [exact U|].
        rewrite Rmult_assoc, Ey, (Rmult_comm y cx). exact H.
      + intros H h Ih. specialize (L h Ih). apply Rle_trans with (cfl * d * u); [apply Rmult_le_compat_r; lra|].
        rewrite Rmult_assoc, (Rmult_comm cx h). apply Rmult_le_compat_l; lra.
    - split; [auto|]. intros _ h Ih. rewrite Sa, Rmult_0_r. specialize (Hh h Ih). assert (0 < cx * h) by (apply Rmult_lt_0_compat; assumption). nra. }
  assert (Lb : forall x, (forall h, In h vs -> x * w <= cfl * (cz * h)) <->
                          match b with PInf => True | Fin d => x <= cfl * d end).
  { intros x. destruct b as [d|].
    - destruct Sb as (U & (y & Iy & Ey) & L). split.
      + intros H. specialize (H y Iy). apply Rmult_le_reg_r with w; [exact U|].
        rewrite Rmult_assoc, Ey, (Rmult_comm y cz). exact H.
      + intros H h Ih. specialize (L h Ih). apply Rle_trans with (cfl * d * w); [apply Rmult_le_compat_r; lra|].
        rewrite Rmult_assoc, (Rmult_comm cz h). apply Rmult_le_compat_l; lra.
    - split; [auto|]. intros _ h Ih. rewrite Sb, Rmult_0_r. specialize (Hv h Ih). assert (0 < cz * h) by (apply Rmult_lt_0_compat; assumption). nra. }
  assert (Lc : forall x, (forall h, In h hs -> x * nu <= cfl * (cd * h) ^ 2) <->
                          match c with PInf => True | Fin d => x <= cfl * d end).
  { intros x. destruct c as [d|].
    - destruct Sc as (U & (y & Iy & Ey) & L). split.
      + intros H. specialize (H y Iy). apply Rmult_le_reg_r with nu; [exact U|].
        rewrite (Rmult_comm cd y), <- Ey in H. lra.
      + intros H h Ih. specialize (L h Ih). rewrite (Rmult_comm cd h).
        apply Rle_trans with (cfl * d * nu).
        * apply Rmult_le_compat_r; lra.
        * rewrite Rmult_assoc. apply Rmult_le_compat_l; lra.
    - split; [auto|]. intros _ h Ih. rewrite Sc. rewrite Rmult_0_r.
      apply Rmult_le_pos; [lra|]. apply pow2_ge_0. }
  assert (posq : forall d s k, 0 < s -> 0 < k -> d * s = k -> 0 < d).
  { intros d s k S K E. apply Rmult_lt_reg_r with s; [exact S|]. rewrite E, Rmult_0_l. exact K. }
  assert (Dec : forall x, ok x <->
     match a with PInf => True | Fin d => x <= cfl * d end /\
     match b with PInf => True | Fin d => x <= cfl * d end /\
     match c with PInf => True | Fin d => x <= cfl * d end).
  { intros x. split.
    - intros [A1 A2 A3]. repeat split; [apply La|apply Lb|apply Lc]; assumption.
    - intros (A1 & A2 & A3). constructor; [apply La|apply Lb|apply Lc]; assumption. }
  assert (Qa : match a with PInf => True | Fin d => 0 < d end).
  { destruct a; [|exact I]. destruct Sa as (U & (y & Iy & Ey) & _). apply (posq _ _ _ U) in Ey; [exact Ey|].
    specialize (Hh y Iy). nra. }
  assert (Qb : match b with PInf => True | Fin d => 0 < d end).
  { destruct b; [|exact I]. destruct Sb as (U & (y & Iy & Ey) & _). apply (posq _ _ _ U) in Ey; [exact Ey|].
    specialize (Hv y Iy). nra. }
  assert (Qc : match c with PInf => True | Fin d => 0 < d end).
  { destruct c; [|exact I]. destruct Sc as (U & (y & Iy & Ey) & _). apply (posq _ _ _ U) in Ey; [exact Ey|].
    specialize (Hh y Iy). assert (0 < y * cd) by nra. apply pow_lt. assumption. }
  assert (Sa' : match a with PInf => u = 0 | Fin _ => 0 < u end) by (destruct a; [exact (proj1 Sa)|exact Sa]).
  assert (Sb' : match b with PInf => w = 0 | Fin _ => 0 < w end) by (destruct b; [exact (proj1 Sb)|exact Sb]).
  assert (Sc' : match c with PInf => nu = 0 | Fin _ => 0 < nu end) by (destruct c; [exact (proj1 Sc)|exact Sc]).
  clear Sa Sb Sc La Lb Lc Ea Eb Ec posq.
  assert (min_iff : forall x y z, x <= cfl * Rmin y z <-> x <= cfl * y /\ x <= cfl * z).
  { intros x y z. unfold Rmin. destruct (Rle_dec y z); split; intros; try split; nra. }
  destruct a as [a|], b as [b|], c as [c|]; cbn [emin escale];
    (try (split; [exact Sa'|split; [exact Sb'|exact Sc']]));
    (split; [apply Rmult_lt_0_compat; [exact Hcfl|]; unfold Rmin;
             repeat match goal with |- context [Rle_dec ?a ?b] => destruct (Rle_dec a b) end; assumption
            |split; [tauto|intros x; rewrite (Dec x), ?min_iff; tauto]]).
Qed.

(** The automatic step is positive, a whole number of steps make an export
    interval, no element forbids it, and it is the longest such step. *)
Theorem C65_step_3d : forall user rh rv dt,
  spread rh hs -> spread rv vs ->
  set_time_step_3d true fam p leapfrog cfl u w nu user T rh rv = Ok dt ->
  0 < dt /\ (exists k, (1 <= k)%Z /\ T = IZR k * dt) /\ ok dt /\
  forall k, (1 <= k)%Z -> ok (T / IZR k) -> T / IZR k <= dt.
Proof.
  intros user rh rv dt Sh Sv E.
  destruct (limit_3d rh rv Sh Sv) as (e & Ee & (a & b & c & Ea & Eb & Ec) & He).
  unfold set_time_step_3d in E. rewrite Ea, Eb, Ec in E, Ee. cbv zeta in E. rewrite Ee in E.
  destruct (Rlt_dec 0 user); [|discriminate E].
  destruct e as [d|]; [|discriminate E]. destruct He as (Pd & _ & Hok).
  cbn [fit_export] in E. destruct (Req_EM_T d 0); [lra|].
  set (m := ceil (T / d)) in *.
  destruct (ceil_spec (T / d)) as [C1 C2]. fold m in C1, C2.
  assert (PT : 0 < T / d) by (apply Rdiv_lt_0_compat; assumption).
  assert (M1 : (1 <= m)%Z) by (apply (Zlt_le_succ 0); apply lt_IZR; lra).
  destruct (Z.eq_dec m 0); [lia|].
  assert (Ed : dt = T / IZR m) by (injection E; auto). clear E.
  assert (MP : 0 < IZR m) by (apply IZR_lt; lia).
  assert (Td : T <= IZR m * d).
  { apply Rmult_le_compat_r with (r := d) in C2; [|lra].
    replace (T / d * d) with T in C2 by (field; lra). exact C2. }
  subst dt. split; [apply Rdiv_lt_0_compat; assumption|].
  split; [exists m; split; [exact M1|field; lra]|].
  split.
  - apply Hok. apply Rmult_le_reg_r with (IZR m); [exact MP|].
    replace (T / IZR m * IZR m) with T by (field; lra). lra.
  - intros k K1 Hk. apply Hok in Hk. assert (KP : 0 < IZR k) by (apply IZR_lt; lia).
    assert (KM : (m <= k)%Z).
    { apply Rmult_le_compat_r with (r := IZR k) in Hk; [|lra].
      replace (T / IZR k * IZR k) with T in Hk by (field; lra).
      assert (T / d <= IZR k).
      { apply Rmult_le_reg_r with d; [exact Pd|]. replace (T / d * d) with T by (field; lra). lra. }
      assert (L : (m - 1 < k)%Z) by (apply lt_IZR; rewrite minus_IZR; lra). lia. }
    apply IZR_le in KM. unfold Rdiv. apply Rmult_le_compat_l; [lra|].
    apply Rinv_le_contravar; lra.
Qed.

(** When it exists: some scale is positive and the (otherwise unused) user time
    step is positive. *)
Theorem C65_step_3d_total : forall user rh rv,
  spread rh hs -> spread rv vs ->
  let r := set_time_step_3d true fam p leapfrog cfl u w nu user T rh rv in
  (0 < user -> 0 < u \/ 0 < w \/ 0 < nu -> exists dt, r = Ok dt) /\
  (0 < user -> u = 0 -> w = 0 -> nu = 0 -> r = ZeroDivisionError) /\
  (user <= 0 -> r = AssertionError).
Proof.
  intros user rh rv Sh Sv r.
  destruct (limit_3d rh rv Sh Sv) as (e & Ee & (a & b & c & Ea & Eb & Ec) & He).
  unfold r, set_time_step_3d. rewrite Ea, Eb, Ec in *. cbv zeta. rewrite Ee.
  destruct (Rlt_dec 0 user) as [U|U].
  - split; [|split; [|lra]].
    + intros _ H. destruct e as [d|]; [|lra]. destruct He as (Pd & _).
      cbn [fit_export]. destruct (Req_EM_T d 0); [lra|].
      destruct (ceil_spec (T / d)) as [C1 C2].
      assert (PT : 0 < T / d) by (apply Rdiv_lt_0_compat; assumption).
      destruct (Z.eq_dec (ceil (T / d)) 0) as [Z|Z]; [|eexists; reflexivity].
      rewrite Z in C2. lra.
    + intros _ U0 W0 N0. destruct e as [d|]; [|reflexivity].
      destruct He as (_ & H & _). lra.
  - split; [lra|split; [lra|]]. intros _. reflexivity.
Qed.

(** The same step on every distribution of the mesh over processes. *)
Theorem C65_partition_independent : forall automatic user rh rv rh' rv',
  spread rh hs -> spread rv vs -> spread rh' hs -> spread rv' vs ->
  set_time_step_3d automatic fam p leapfrog cfl u w nu user T rh rv
  = set_time_step_3d automatic fam p leapfrog cfl u w nu user T rh' rv'.
Proof.
  intros automatic user rh rv rh' rv' Sh Sv Sh' Sv'.
  destruct (limit_3d rh rv Sh Sv) as (e & Ee & (a & b & c & Ea & Eb & Ec) & He).
  destruct (limit_3d rh' rv' Sh' Sv') as (e' & Ee' & (a' & b' & c' & Ea' & Eb' & Ec') & He').
  assert (E : e = e').
  { destruct e as [d|], e' as [d'|].
    - destruct He as (_ & _ & H), He' as (_ & _ & H').
      f_equal. apply Rle_antisym; [apply H', H|apply H, H']; apply Rle_refl.
    - destruct He as (_ & H & _). lra.
    - destruct He' as (_ & H & _). lra.
    - reflexivity. }
  unfold set_time_step_3d. rewrite Ea, Eb, Ec, Ea', Eb', Ec' in *. cbv zeta.
  destruct automatic; [|reflexivity]. rewrite Ee, Ee', E. reflexivity.
Qed.

(** With a user time step no scale matters; only the export interval does. *)
Theorem C65_user_step_3d : forall user rh rv,
  spread rh hs -> spread rv vs -> 0 < user ->
  exists dt k, set_time_step_3d false fam p leapfrog cfl u w nu user T rh rv = Ok dt /\
    (1 <= k)%Z /\ T = IZR k * dt /\ 0 < dt <= user /\
    forall j, (1 <= j < k)%Z -> user < T / IZR j.
Proof.
  intros user rh rv Sh Sv U.
  destruct (limit_3d rh rv Sh Sv) as (e & Ee & (a & b & c & Ea & Eb & Ec) & He).
  unfold set_time_step_3d. rewrite Ea, Eb, Ec. cbn [fit_export].
  destruct (Req_EM_T user 0); [lra|].
  set (m := ceil (T / user)). destruct (ceil_spec (T / user)) as [C1 C2]. fold m in C1, C2.
  assert (PT : 0 < T / user) by (apply Rdiv_lt_0_compat; assumption).
  assert (M1 : (1 <= m)%Z) by (apply (Zlt_le_succ 0); apply lt_IZR; lra).
  destruct (Z.eq_dec m 0); [lia|].
  assert (MP : 0 < IZR m) by (apply IZR_lt; lia).
  exists (T / IZR m), m. split; [reflexivity|]. split; [exact M1|]. split; [field; lra|]. split.
  - split; [apply Rdiv_lt_0_compat; assumption|].
    apply Rmult_le_compat_r with (r := user) in C2; [|lra].
    replace (T / user * user) with T in C2 by (field; lra).
    apply Rmult_le_reg_r with (IZR m); [exact MP|].
    replace (T / IZR m * IZR m) with T by (field; lra). lra.
  - intros j (J1 & J2). assert (JP : 0 < IZR j) by (apply IZR_lt; lia).
    assert (JM : IZR j <= IZR m - 1).
    { rewrite <- minus_IZR. apply IZR_le. lia. }
    apply Rmult_lt_reg_r with (IZR j); [exact JP|].
    replace (T / IZR j * IZR j) with T by (field; lra).
    assert (L : IZR j < T / user) by lra.
    apply Rmult_lt_compat_r with (r := user) in L; [|lra].
    replace (T / user * user) with T in L by (field; lra). lra.
Qed.
End Step3d.
Print Assumptions C65_step_3d.
Print Assumptions C65_step_3d_total.
Print Assumptions C65_partition_independent.
Print Assumptions C65_user_step_3d.

(** A process without nodes stops the run, whatever the others own. *)
Theorem C65_empty_process : forall automatic fam p leapfrog cfl u w nu user T rh rv,
  In [] rh \/ In [] rv ->
  set_time_step_3d automatic fam p leapfrog cfl u w nu user T rh rv = ValueError.
Proof.
  assert (A : forall g ranks, In [] ranks -> reduced_step g ranks = None).
  { intros g ranks H. unfold reduced_step. replace (local_steps g ranks) with (@None (list ext)); [reflexivity|].
    symmetry. induction ranks as [|l r IH]; [destruct H|]. cbn [local_steps]. destruct H as [E|H].
    - subst l. reflexivity.
    - rewrite (IH H). destruct (local_min l); reflexivity. }
  intros automatic fam p leapfrog cfl u w nu user T rh rv H.
  unfold set_time_step_3d, dt_h_advection, dt_v_advection, dt_diffusion. destruct H as [H|H].
  - rewrite (A _ rh H). reflexivity.
  - rewrite (A _ rv H). destruct (reduced_step _ rh); reflexivity.
Qed.
Print Assumptions C65_empty_process.

(** A diffusivity below max_h_diff keeps dt below h^2 / (60 d (d+1) nu), d the
    degree (2 instead of d (d+1) is impossible for d = 0: then 60 nu). *)
Theorem C65_max_diffusivity : forall d dt h nu,
  0 < dt -> 0 < nu -> (nu <= max_h_diff d dt h <-> dt <= h ^ 2 / (60 * (if Nat.eqb d 0 then 1 else INR (d * (d + 1))) * nu)).
Proof.
  intros d dt h nu Hdt Hnu. unfold max_h_diff.
  replace (Rmax (INR (d * (d + 1))) 1) with (if Nat.eqb d 0 then 1 else INR (d * (d + 1))).
  2: { destruct d as [|d]; [cbn; rewrite Rmax_right; lra|]. cbn [Nat.eqb]. rewrite Rmax_left; [reflexivity|].
       change 1 with (INR 1). apply le_INR. lia. }
  set (c := if Nat.eqb d 0 then 1 else INR (d * (d + 1))).
  assert (Pc : 0 < c).
  { unfold c. destruct d as [|d]; [cbn; lra|]. cbn [Nat.eqb]. apply lt_0_INR. lia. }
  assert (Pcn : 0 < 60 * c * nu) by nra.
  split; intros H.
  - apply Rmult_le_reg_r with (60 * c * nu); [exact Pcn|].
    replace (h ^ 2 / (60 * c * nu) * (60 * c * nu)) with (h ^ 2) by (field; lra).
    apply Rmult_le_compat_r with (r := 60 * c * dt) in H; [|nra].
    replace (1 / 60 / c / dt * h ^ 2 * (60 * c * dt)) with (h ^ 2) in H by (field; lra). lra.
  - apply Rmult_le_reg_r with (60 * c * dt); [nra|].
    replace (1 / 60 / c / dt * h ^ 2 * (60 * c * dt)) with (h ^ 2) by (field; lra).
    apply Rmult_le_compat_r with (r := 60 * c * nu) in H; [|lra].
    replace (h ^ 2 / (60 * c * nu) * (60 * c * nu)) with (h ^ 2) in H by (field; lra). lra.
Qed.
Print Assumptions C65_max_diffusivity.

(** Two processes, elements of 300, 500 and 400 m, layers of 2 and 4 m, RT0-DG,
    one export per hour: the vertical limit 2/8/0.001 = 250 s and the horizontal
    one 300 * 3/60 / 0.1 = 150 s allow 24 steps of 150 s. *)
Example C65_case :
  spread [[300; 500]; [400]] [300; 500; 400] /\ spread [[2]; [4]] [2; 4] /\
  set_time_step_3d true RTDG 0 false 1 (1/10) (1/1000) 0 10 3600 [[300; 500]; [400]] [[2]; [4]] = Ok 150.
Proof.
  assert (S1 : spread [[300; 500]; [400]] [300; 500; 400]).
  { split; [discriminate|]. split; [|reflexivity]. intros l [E|[E|[]]]; subst; discriminate. }
  assert (S2 : spread [[2]; [4]] [2; 4]).
  { split; [discriminate|]. split; [|reflexivity]. intros l [E|[E|[]]]; subst; discriminate. }
  split; [exact S1|]. split; [exact S2|].
  assert (F : dx_factor RTDG 0 = 3 / 60).
  { destruct (C65_factors 0) as (_ & E & _). rewrite E. destruct (C65_factors 1) as (E1 & _). rewrite E1. cbn. lra. }
  assert (G : dz_factor 0 = 1 / 8).
  { destruct (C65_factors 0) as (_ & _ & _ & E). rewrite E. cbn. lra. }
  assert (C : ceil (3600 / 150) = 24%Z).
  { destruct (ceil_spec (3600 / 150)) as [A B]. replace (3600 / 150) with 24 in * by lra.
    assert (H1 : (ceil 24 - 1 < 24)%Z) by (apply lt_IZR; rewrite minus_IZR; exact A).
    assert (H2 : (24 <= ceil 24)%Z) by (apply le_IZR; exact B). lia. }
  unfold set_time_step_3d, dt_h_advection, dt_v_advection, dt_diffusion, reduced_step.
  cbn [local_steps local_min fold_left fold_right]. rewrite F, G.
  replace (Rmin 300 500) with 300 by (rewrite Rmin_left; lra).
  unfold ediv. destruct (Req_EM_T (1/10) 0); [lra|]. destruct (Req_EM_T (1/1000) 0); [lra|].
  destruct (Req_EM_T 0 0); [|lra]. cbn [emin].
  rewrite (Rmin_left (300 * (3/60) / (1/10)) (400 * (3/60) / (1/10))) by lra.
  rewrite (Rmin_left (2 * (1/8) / (1/1000)) (4 * (1/8) / (1/1000))) by lra.
  rewrite Rmin_left by lra. cbn [escale].
  replace (1 * (300 * (3 / 60) / (1 / 10))) with 150 by lra.
  destruct (Rlt_dec 0 10); [|lra]. cbn [fit_export]. destruct (Req_EM_T 150 0); [lra|].
  rewrite C. cbn. f_equal. lra.
Qed.

(** ** The shallow water limit *)
Section Swe.
Context {V N : Type}.
Variables (pts : list V) (wt : V -> R) (Sp : space V N).
Hypothesis Hwt : forall q, In q pts -> 0 <= wt q.
Variables (csize : V -> R) (bath : N -> R) (u_scale : R).
Hypothesis Hcs : forall q, In q pts -> 0 < csize q.
Hypothesis Husc : 0 <= u_scale.
(** Linear elements: the basis functions are non-negative and add up to one. *)
Hypothesis Hbas : forall n q, In n (sp_nodes Sp) -> In q pts -> 0 <= sp_basis Sp n q.
Hypothesis Hone : forall q, In q pts -> feval Sp (fun _ => 1) q = 1.

Lemma integral_swap : forall (l : list V) (w : V -> R) (ns : list N) (b : N -> V -> R) (g : V -> R),
  integral ns (fun _ => 1) (fun n => integral l w (fun q => b n q * g q))
  = integral l w (fun q => integral ns (fun n => b n q) (fun _ => 1) * g q).
Proof.
  intros l w ns b g. induction ns as [|n ns IH].
  - cbn [integral fold_right]. symmetry. induction l as [|x l IHl]; [reflexivity|]. cbn.
    unfold integral in IHl. rewrite IHl. ring.
  - change (1 * integral l w (fun q => b n q * g q)
            + integral ns (fun _ => 1) (fun n => integral l w (fun q => b n q * g q))
            = integral l w (fun q => (b n q * 1 + integral ns (fun n => b n q) (fun _ => 1)) * g q)).
    rewrite IH. clear IH. induction l as [|x l IHl]; [cbn; ring|].
    unfold integral in *. cbn [fold_right] in *. lra.
Qed.

Lemma feval_ge : forall c m q, In q pts -> (forall n, In n (sp_nodes Sp) -> m <= c n) -> m <= feval Sp c q.
Proof.
  intros c m q Iq H. pose proof (Hone q Iq) as O. unfold feval in *.
  assert (G : forall ns, (forall n, In n ns -> In n (sp_nodes Sp)) ->
    m * integral ns (fun n => sp_basis Sp n q) (fun _ => 1) <= integral ns (fun n => sp_basis Sp n q) c).
  { induction ns as [|n ns IH]; intros I; [cbn; lra|].
    assert (A : m * integral ns (fun n => sp_basis Sp n q) (fun _ => 1) <= integral ns (fun n => sp_basis Sp n q) c)
      by (apply IH; intros n' I'; apply I; right; exact I').
    assert (B : m <= c n) by (apply H; apply I; left; reflexivity).
    assert (D : 0 <= sp_basis Sp n q) by (apply Hbas; [apply I; left; reflexivity|exact Iq]).
    unfold integral in *. cbn [fold_right]. nra. }
  specialize (G (sp_nodes Sp) (fun _ x => x)). rewrite O in G. lra.
Qed.

(** The wave speed is at least that of 5 cm of water, also on dry land. *)
Theorem C65_speed_positive : forall q, In q pts ->
  sqrt (981 / 100 * (5 / 100)) <= speed Sp bath u_scale q.
Proof.
  intros q Iq. unfold speed. apply Rle_trans with (sqrt (981 / 100 * feval Sp (fun n => clip (bath n)) q)); [|lra].
  apply sqrt_le_1_alt. apply Rmult_le_compat_l; [lra|]. apply feval_ge; [exact Iq|].
  intros n _. unfold clip. destruct (Rlt_dec (bath n) (5/100)); lra.
Qed.

Lemma nodal_min : forall (owned : list (list N)) (sol : N -> R),
  (forall n, In n (concat owned) <-> In n (sp_nodes Sp)) ->
  owned <> [] -> (forall l, In l owned -> l <> []) ->
  exists n, In n (sp_nodes Sp) /\ forall k, 0 <= k ->
    reduced_step (fun m => Fin (k * m)) (map (map sol) owned) = Some (Fin (k * sol n)) /\
    forall n', In n' (sp_nodes Sp) -> sol n <= sol n'.
Proof.
  intros owned sol Ho Hn Hl.
  assert (Inc : forall x, In x (concat (map (map sol) owned)) <-> exists n, In n (sp_nodes Sp) /\ x = sol n).
  { intros x. rewrite <- concat_map, in_map_iff. split.
    - intros (n & E & I). exists n. split; [apply Ho; exact I|symmetry; exact E].
    - intros (n & I & E). exists n. split; [symmetry; exact E|apply Ho; exact I]. }
  assert (R : forall k, 0 <= k -> exists d, reduced_step (fun m => Fin (k * m)) (map (map sol) owned) = Some (Fin d) /\
    (exists x, In x (concat (map (map sol) owned)) /\ d = k * x) /\
    forall y, In y (concat (map (map sol) owned)) -> d <= k * y).
  { intros k Hk. apply (reduced_fin (fun m => k * m) (fun _ => True)).
    - intros x y _ _ L. apply Rmult_le_compat_l; assumption.
    - destruct owned; [contradiction|discriminate].
    - intros l I. apply in_map_iff in I. destruct I as (l0 & E & I). subst l. specialize (Hl l0 I).
      destruct l0; [contradiction|discriminate].
    - intros; exact I. }
  destruct (R 1 ltac:(lra)) as (d & _ & (x & Ix & Ex) & L1).
  apply Inc in Ix. destruct Ix as (n & In_ & En). exists n. split; [exact In_|].
  assert (Min : forall n', In n' (sp_nodes Sp) -> sol n <= sol n').
  { intros n' I. specialize (L1 (sol n')). rewrite Ex, En in L1.
    assert (G : 1 * sol n <= 1 * sol n') by (apply L1; apply Inc; exists n'; split; [exact I|reflexivity]). lra. }
  intros k Hk. split; [|exact Min].
  destruct (R k Hk) as (d' & E' & (y & Iy & Ey) & L').
  apply Inc in Iy. destruct Iy as (n' & In' & En'). rewrite E'. f_equal. f_equal.
  apply Rle_antisym.
  - apply L'. apply Inc. exists n. split; [exact In_|reflexivity].
  - rewrite Ey, En'. apply Rmult_le_compat_l; [exact Hk|]. apply Min. exact In'.
Qed.

(** The 2D automatic step is the smallest nodal value of the projected field times
    the factors, on every distribution; it never exceeds the mean over the domain
    of (element size)/(wave speed) times the factors. *)
Theorem C65_step_2d_mean : forall owned sol flags timestep cfl alpha,
  cfl_field pts wt Sp csize bath u_scale sol ->
  (forall n, In n (concat owned) <-> In n (sp_nodes Sp)) ->
  owned <> [] -> (forall l, In l owned -> l <> []) ->
  0 <= cfl -> 0 <= alpha -> In (Some true) flags ->
  exists dt, set_time_step_2d flags timestep cfl alpha owned sol = Some (Ok dt) /\
    (exists n, In n (sp_nodes Sp) /\ dt = cfl * alpha * sol n) /\
    (forall n, In n (sp_nodes Sp) -> dt <= cfl * alpha * sol n) /\
    dt * integral pts wt (fun _ => 1)
      <= cfl * alpha * integral pts wt (fun q => csize q / speed Sp bath u_scale q).
Proof.
  intros owned sol flags timestep cfl alpha Hsol Ho Hn Hl Hc Ha Hf.
  destruct (nodal_min owned sol Ho Hn Hl) as (n & In_ & H).
  destruct (H (cfl * alpha) (Rmult_le_pos _ _ Hc Ha)) as (E & Min).
  exists (cfl * alpha * sol n). unfold set_time_step_2d, automatic_2d.
  assert (X : existsb (fun f : option bool => match f with Some true => true | _ => false end) flags = true)
    by (apply existsb_exists; exists (Some true); split; [exact Hf|reflexivity]).
  rewrite X, E. split; [reflexivity|]. split; [exists n; split; [exact In_|reflexivity]|].
  split; [intros n' I; apply Rmult_le_compat_l; [apply Rmult_le_pos; assumption|apply Min; exact I]|].
  assert (G : sol n * integral pts wt (fun _ => 1)
              <= integral pts wt (fun q => csize q / speed Sp bath u_scale q)).
  2: { rewrite Rmult_assoc. apply Rmult_le_compat_l; [apply Rmult_le_pos; assumption|exact G]. }
  pose proof (integral_swap pts wt (sp_nodes Sp) (sp_basis Sp) (feval Sp sol)) as I1.
  pose proof (integral_swap pts wt (sp_nodes Sp) (sp_basis Sp) (fun q => csize q / speed Sp bath u_scale q)) as I2.
  assert (EQ : integral (sp_nodes Sp) (fun _ => 1) (fun n => integral pts wt (fun q => sp_basis Sp n q * feval Sp sol q))
             = integral (sp_nodes Sp) (fun _ => 1) (fun n => integral pts wt (fun q => sp_basis Sp n q * (csize q / speed Sp bath u_scale q)))).
  { apply integral_ext. intros n' I. apply Hsol. exact I. }
  rewrite I1, I2 in EQ. clear I1 I2.
  assert (A : integral pts wt (fun q => integral (sp_nodes Sp) (fun n => sp_basis Sp n q) (fun _ => 1) * (csize q / speed Sp bath u_scale q))
            = integral pts wt (fun q => csize q / speed Sp bath u_scale q)).
  { apply integral_ext. intros q I. pose proof (Hone q I) as O. unfold feval in O. rewrite O. ring. }
  assert (B : integral pts wt (fun q => integral (sp_nodes Sp) (fun n => sp_basis Sp n q) (fun _ => 1) * feval Sp sol q)
            = integral pts wt (feval Sp sol)).
  { apply integral_ext. intros q I. pose proof (Hone q I) as O. unfold feval in O. rewrite O. ring. }
  rewrite A, B in EQ. rewrite <- EQ. rewrite <- integral_scal. apply integral_le; [exact Hwt|].
  intros q I. rewrite Rmult_1_r. apply feval_ge; [exact I|exact Min].
Qed.

(** Uniform mesh and depth: the field csize/(sqrt(gH)+U) solves the projection. *)
Theorem C65_uniform : forall c H,
  (forall q, In q pts -> csize q = c) -> (forall n, In n (sp_nodes Sp) -> bath n = H) -> 5 / 100 <= H ->
  cfl_field pts wt Sp csize bath u_scale (fun _ => c / (sqrt (981 / 100 * H) + u_scale)).
Proof.
  intros c Hd Hc Hb Hp n Hn. apply integral_ext. intros q Iq. f_equal.
  assert (K : forall (k : R) (f : N -> R), (forall n, In n (sp_nodes Sp) -> f n = k) -> feval Sp f q = k).
  { intros k f Hf. pose proof (Hone q Iq) as O. unfold feval in *.
    assert (E : integral (sp_nodes Sp) (fun n0 => sp_basis Sp n0 q) f
              = integral (sp_nodes Sp) (fun n0 => sp_basis Sp n0 q) (fun _ => k * 1)).
    { apply integral_ext. intros n' I. rewrite (Hf n' I). ring. }
    rewrite E, (integral_scal (sp_nodes Sp) (fun n0 => sp_basis Sp n0 q) k (fun _ => 1)), O. ring. }
  rewrite (K (c / (sqrt (981 / 100 * Hd) + u_scale))) by reflexivity.
  rewrite (Hc q Iq). unfold speed. rewrite (K Hd); [reflexivity|].
  intros n' I. rewrite (Hb n' I). unfold clip. destruct (Rlt_dec Hd (5/100)); lra.
Qed.
End Swe.
Print Assumptions C65_speed_positive.
Print Assumptions C65_step_2d_mean.
Print Assumptions C65_uniform.

(** ** Piecewise constant bathymetry *)
Section Constant_cells.
Context {V : Type}.
Variables (pts : list V) (wt : V -> R) (cell : V -> nat) (cells : list nat).
Hypothesis Hnd : NoDup cells.
Hypothesis Hin : forall q, In q pts -> In (cell q) cells.
Hypothesis Hwt : forall q, In q pts -> 0 < wt q.
Variables (csize : V -> R) (bath : nat -> R) (u_scale : R).
Hypothesis Hcs : forall q, In q pts -> 0 < csize q.
Hypothesis Husc : 0 <= u_scale.
Let Sp : space V nat := mk_space cells (fun n q => if Nat.eqb (cell q) n then 1 else 0).

(** Integral over one cell. *)
Definition over (K : nat) (g : V -> R) : R :=
  integral pts wt (fun q => (if Nat.eqb (cell q) K then 1 else 0) * g q).

Lemma feval_cell : forall c q, In q pts -> feval Sp c q = c (cell q).
Proof.
  intros c q Iq. specialize (Hin q Iq). unfold feval, Sp. cbn [sp_nodes sp_basis].
  assert (Z : forall l, ~ In (cell q) l -> integral l (fun n => if Nat.eqb (cell q) n then 1 else 0) c = 0).
  { induction l as [|x l IH]; intros H; [reflexivity|]. unfold integral in *. cbn [fold_right].
    rewrite IH by (intros I; apply H; right; exact I).
    destruct (Nat.eqb_spec (cell q) x) as [E|E]; [exfalso; apply H; left; symmetry; exact E|ring]. }
  clear Iq. induction cells as [|x l IH]; [destruct Hin|].
  inversion Hnd as [|a b X1 X2]; subst.
  change (integral (x :: l) (fun n => if Nat.eqb (cell q) n then 1 else 0) c)
    with ((if Nat.eqb (cell q) x then 1 else 0) * c x + integral l (fun n => if Nat.eqb (cell q) n then 1 else 0) c).
  destruct (Nat.eqb_spec (cell q) x) as [E|E].
  - rewrite Z by (rewrite E; exact X1). rewrite E. ring.
  - destruct Hin as [Q|Q]; [congruence|]. rewrite (IH X2 Q). ring.
Qed.

(** The step then respects the wave speed of every cell: it is at most the mean
    element size of the cell divided by sqrt(g max(H, 0.05)) + U, it is positive,
    and one cell attains it. *)
Theorem C65_step_2d_cells : forall owned sol flags timestep cfl alpha,
  cfl_field pts wt Sp csize bath u_scale sol ->
  (forall n, In n (concat owned) <-> In n cells) ->
  owned <> [] -> (forall l, In l owned -> l <> []) ->
  (forall K, In K cells -> exists q, In q pts /\ cell q = K) ->
  0 < cfl -> 0 < alpha -> In (Some true) flags ->
  exists dt, set_time_step_2d flags timestep cfl alpha owned sol = Some (Ok dt) /\ 0 < dt /\
    (forall K, In K cells ->
       dt * (sqrt (981 / 100 * Rmax (bath K) (5 / 100)) + u_scale) * over K (fun _ => 1)
       <= cfl * alpha * over K csize) /\
    exists K, In K cells /\
       dt * (sqrt (981 / 100 * Rmax (bath K) (5 / 100)) + u_scale) * over K (fun _ => 1)
       = cfl * alpha * over K csize.
Proof.
  intros owned sol flags timestep cfl alpha Hsol Ho Hn Hl Hocc Hc Ha Hf.
  destruct (nodal_min Sp owned sol Ho Hn Hl) as (K & IK & H).
  destruct (H (cfl * alpha) ltac:(nra)) as (E & Min).
  exists (cfl * alpha * sol K). unfold set_time_step_2d, automatic_2d.
  assert (X : existsb (fun f : option bool => match f with Some true => true | _ => false end) flags = true)
    by (apply existsb_exists; exists (Some true); split; [exact Hf|reflexivity]).
  rewrite X, E. split; [reflexivity|].
  set (s := fun n => sqrt (981 / 100 * Rmax (bath n) (5 / 100)) + u_scale).
  assert (Ps : forall n, 0 < s n).
  { intros n. unfold s. assert (0 < sqrt (981 / 100 * Rmax (bath n) (5 / 100))); [|lra].
    apply sqrt_lt_R0. pose proof (Rmax_r (bath n) (5/100)). nra. }
  assert (Sol : forall n, In n cells -> sol n * s n * over n (fun _ => 1) = over n csize).
  { intros n I. specialize (Hsol n I). cbn [sp_basis Sp] in Hsol.
    assert (A : integral pts wt (fun q => (if Nat.eqb (cell q) n then 1 else 0) * feval Sp sol q)
              = sol n * over n (fun _ => 1)).
    { unfold over. rewrite <- integral_scal. apply integral_ext. intros q Iq. rewrite (feval_cell sol q Iq).
      destruct (Nat.eqb_spec (cell q) n) as [e|e]; [rewrite e|]; ring. }
    assert (B : integral pts wt (fun q => (if Nat.eqb (cell q) n then 1 else 0) * (csize q / speed Sp bath u_scale q))
              = / s n * over n csize).
    { unfold over. rewrite <- integral_scal. apply integral_ext. intros q Iq. unfold speed.
      rewrite (feval_cell (fun n => clip (bath n)) q Iq).
      destruct (Nat.eqb_spec (cell q) n) as [e|e]; [rewrite e|ring].
      assert (C : clip (bath n) = Rmax (bath n) (5 / 100)).
      { unfold clip, Rmax. destruct (Rlt_dec (bath n) (5/100)), (Rle_dec (bath n) (5/100)); lra. }
      rewrite C. fold (s n). field. pose proof (Ps n). lra. }
    rewrite A, B in Hsol. pose proof (Ps n) as P.
    rewrite (Rmult_comm (sol n) (s n)), Rmult_assoc, Hsol. field. lra. }
  assert (Pv : forall (g : V -> R) n, In n cells -> (forall q, In q pts -> 0 < g q) -> 0 < over n g).
  { intros g n I Pg. destruct (Hocc n I) as (q0 & Iq0 & Eq0). unfold over. clear - Hwt Pg Iq0 Eq0.
    assert (NN : forall l, (forall q, In q l -> In q pts) ->
       0 <= integral l wt (fun q => (if Nat.eqb (cell q) n then 1 else 0) * g q)).
    { induction l as [|x l IH]; intros S; [cbn; lra|]. unfold integral in *. cbn [fold_right].
      specialize (IH (fun q Q => S q (or_intror Q))).
      pose proof (Hwt x (S x (or_introl eq_refl))). pose proof (Pg x (S x (or_introl eq_refl))).
      assert (0 <= (if Nat.eqb (cell x) n then 1 else 0) * g x) by (destruct (Nat.eqb (cell x) n); lra). nra. }
    assert (G : forall l, (forall q, In q l -> In q pts) -> In q0 l ->
       0 < integral l wt (fun q => (if Nat.eqb (cell q) n then 1 else 0) * g q)).
    { induction l as [|x l IH]; intros S Q; [destruct Q|].
      pose proof (NN l (fun q Q => S q (or_intror Q))) as N0.
      pose proof (Hwt x (S x (or_introl eq_refl))) as W. pose proof (Pg x (S x (or_introl eq_refl))) as G0.
      unfold integral in *. cbn [fold_right].
      destruct Q as [Q|Q].
      - subst x. rewrite Eq0, Nat.eqb_refl. assert (0 < wt q0 * (1 * g q0)) by nra. lra.
      - specialize (IH (fun q Q => S q (or_intror Q)) Q).
        assert (0 <= wt x * ((if Nat.eqb (cell x) n then 1 else 0) * g x)) by (destruct (Nat.eqb (cell x) n); nra). lra. }
    apply (G pts (fun q Q => Q) Iq0). }
  assert (IKc : In K cells) by exact IK.
  assert (P1 : forall n, In n cells -> 0 < over n (fun _ => 1)) by (intros n I; apply Pv; [exact I|intros; lra]).
  assert (Pc : 0 < cfl * alpha) by nra.
  split; [|split].
  - assert (0 < sol K); [|nra]. pose proof (Sol K IKc) as Q. pose proof (Pv csize K IKc Hcs) as A.
    pose proof (P1 K IKc) as B. pose proof (Ps K) as D. rewrite <- Q in A.
    apply Rmult_lt_reg_r with (s K * over K (fun _ => 1)); [nra|]. lra.
  - intros n I. fold (s n). rewrite <- (Sol n I).
    assert (L : sol K <= sol n) by (apply Min; exact I).
    pose proof (P1 n I) as B. pose proof (Ps n) as D.
    assert (0 < s n * over n (fun _ => 1)) by nra.
    assert (0 <= cfl * alpha * (s n * over n (fun _ => 1)) * (sol n - sol K)) by (apply Rmult_le_pos; [|lra]; nra).
    lra.
  - exists K. split; [exact IKc|]. fold (s K). rewrite <- (Sol K IKc). ring.
Qed.
End Constant_cells.
Print Assumptions C65_step_2d_cells.

(** With linear bathymetry the step can be negative. One triangle, integrated
    with its edge midpoints; node sizes 2000, 1000, 2000 m and depths 10.2, 71.4,
    10.2 m. The projection interpolates the midpoint values 75, 200, 75 s, so it
    takes the value 75 + 75 - 200 = -50 s at the deep node. *)
Definition tri : space nat nat := mk_space [0; 1; 2]%nat (fun n q => if Nat.eqb n q then 0 else 1 / 2).
Definition tri_depth (n : nat) : R := if Nat.eqb n 1 then 700 * 100 / 981 else 100 * 100 / 981.
Definition tri_csize (n : nat) : R := if Nat.eqb n 1 then 1000 else 2000.

Theorem C65_negative_step_refuted :
  (forall q, In q [0; 1; 2]%nat -> feval tri (fun _ => 1) q = 1) /\
  (exists sol, cfl_field [0; 1; 2]%nat (fun _ => 1 / 6) tri (feval tri tri_csize) tri_depth 0 sol) /\
  (forall sol flags timestep cfl alpha,
     cfl_field [0; 1; 2]%nat (fun _ => 1 / 6) tri (feval tri tri_csize) tri_depth 0 sol ->
     In (Some true) flags -> 0 < cfl -> 0 < alpha ->
     exists dt, set_time_step_2d flags timestep cfl alpha [[0; 1; 2]%nat] sol = Some (Ok dt) /\ dt < 0).
Proof.
  assert (One : forall q, In q [0; 1; 2]%nat -> feval tri (fun _ => 1) q = 1).
  { intros q [E|[E|[E|[]]]]; subst q; unfold feval, integral, tri; cbn; lra. }
  assert (S10 : sqrt 100 = 10) by (replace 100 with (10 * 10) by lra; apply sqrt_square; lra).
  assert (S20 : sqrt 400 = 20) by (replace 400 with (20 * 20) by lra; apply sqrt_square; lra).
  assert (Cl : forall n, clip (tri_depth n) = tri_depth n).
  { intros n. unfold clip, tri_depth. destruct (Nat.eqb n 1); destruct (Rlt_dec _ _); lra. }
  assert (V0 : feval tri tri_csize 0%nat / speed tri tri_depth 0 0%nat = 75).
  { unfold speed, feval, integral, tri. cbn [sp_nodes sp_basis fold_right Nat.eqb]. rewrite !Cl.
    unfold tri_csize, tri_depth. cbn [Nat.eqb].
    match goal with |- _ / (sqrt ?x + 0) = _ => replace x with 400 by lra end. rewrite S20. lra. }
  assert (V1 : feval tri tri_csize 1%nat / speed tri tri_depth 0 1%nat = 200).
  { unfold speed, feval, integral, tri. cbn [sp_nodes sp_basis fold_right Nat.eqb]. rewrite !Cl.
    unfold tri_csize, tri_depth. cbn [Nat.eqb].
    match goal with |- _ / (sqrt ?x + 0) = _ => replace x with 100 by lra end. rewrite S10. lra. }
  assert (V2 : feval tri tri_csize 2%nat / speed tri tri_depth 0 2%nat = 75).
  { unfold speed, feval, integral, tri. cbn [sp_nodes sp_basis fold_right Nat.eqb]. rewrite !Cl.
    unfold tri_csize, tri_depth. cbn [Nat.eqb].
    match goal with |- _ / (sqrt ?x + 0) = _ => replace x with 400 by lra end. rewrite S20. lra. }
  assert (Pr : forall sol, cfl_field [0; 1; 2]%nat (fun _ => 1 / 6) tri (feval tri tri_csize) tri_depth 0 sol <->
    (sol 0%nat = 200 /\ sol 1%nat = -50 /\ sol 2%nat = 200)).
  { intros sol. unfold cfl_field. split.
    - intros H. pose proof (H 0%nat (or_introl eq_refl)) as H0.
      pose proof (H 1%nat (or_intror (or_introl eq_refl))) as H1.
      pose proof (H 2%nat (or_intror (or_intror (or_introl eq_refl)))) as H2.
      unfold integral in H0, H1, H2. cbn [fold_right] in H0, H1, H2. rewrite V0, V1, V2 in H0, H1, H2.
      unfold feval, integral, tri in H0, H1, H2. cbn in H0, H1, H2. lra.
    - intros (E0 & E1 & E2) n Hn. unfold integral. cbn [fold_right]. rewrite V0, V1, V2.
      unfold feval, integral, tri. cbn [sp_nodes sp_basis fold_right]. rewrite E0, E1, E2.
      destruct Hn as [E|[E|[E|[]]]]; subst n; cbn; lra. }
  split; [exact One|]. split.
  - exists (fun n => if Nat.eqb n 1 then -50 else 200). apply Pr. cbn. repeat split; lra.
  - intros sol flags timestep cfl alpha Hs Hf Hc Ha. apply Pr in Hs. destruct Hs as (E0 & E1 & E2).
    assert (Ho : forall n, In n (concat [[0; 1; 2]%nat]) <-> In n (sp_nodes tri)) by (intros n; reflexivity).
    destruct (nodal_min tri [[0; 1; 2]%nat] sol Ho ltac:(discriminate)) as (n & In_ & H).
    { intros l [E|[]]; subst; discriminate. }
    destruct (H (cfl * alpha) ltac:(nra)) as (E & Min).
    exists (cfl * alpha * sol n). unfold set_time_step_2d, automatic_2d.
    assert (X : existsb (fun f : option bool => match f with Some true => true | _ => false end) flags = true)
      by (apply existsb_exists; exists (Some true); split; [exact Hf|reflexivity]).
    rewrite X, E. split; [reflexivity|].
    specialize (Min 1%nat (or_intror (or_introl eq_refl))). rewrite E1 in Min.
    assert (0 < cfl * alpha) by nra. nra.
Qed.
Print Assumptions C65_negative_step_refuted.

(** Without any automatic option the user's step is taken as it is; one automatic
    option object, even of a component the run does not use, overrides it. *)
Theorem C65_user_step_2d : forall {N : Type} flags timestep cfl alpha (owned : list (list N)) sol,
  ~ In (Some true) flags ->
  set_time_step_2d flags timestep cfl alpha owned sol =
    match timestep with
    | Some t => if Rlt_dec 0 t then Some (Ok t) else Some AssertionError
    | None => Some AssertionError
    end.
Proof.
  intros N flags timestep cfl alpha owned sol H. unfold set_time_step_2d.
  replace (automatic_2d flags) with false; [destruct timestep; reflexivity|].
  symmetry. unfold automatic_2d. induction flags as [|f l IH]; [reflexivity|]. cbn [existsb].
  destruct f as [[|]|]; [exfalso; apply H; left; reflexivity| |];
    cbn [orb]; apply IH; intros I; apply H; right; exact I.
Qed.
Print Assumptions C65_user_step_2d.

(** The fourth flag is that of the Exner equation: it replaces the user's 1 s by
    cfl*alpha*100 s although the other integrators are implicit. *)
Theorem C65_unused_component_refuted :
  exists flags : list (option bool), nth 3 flags None = Some true /\
    (forall i, i <> 3%nat -> nth i flags None = None) /\
    set_time_step_2d flags (Some 1) 1 1 [[0%nat]] (fun _ => 100) = Some (Ok 100).
Proof.
  exists [None; None; None; Some true; None]. split; [reflexivity|]. split.
  - intros i H. destruct i as [|[|[|[|[|[|i]]]]]]; try reflexivity; contradiction.
  - unfold set_time_step_2d, reduced_step. cbn. f_equal. f_equal. lra.
Qed.
Print Assumptions C65_unused_component_refuted.

(** A uniform triangle meets the hypotheses of [C65_step_2d_mean]. *)
Example C65_uniform_case :
  exists dt, set_time_step_2d [None; Some true] None 1 (5 / 100) [[0]; [1; 2]]%nat
               (fun _ => 500 / (sqrt (981 / 100 * 10) + 0)) = Some (Ok dt) /\
    dt * integral [0; 1; 2]%nat (fun _ => 1 / 6) (fun _ => 1)
      <= 1 * (5 / 100) * integral [0; 1; 2]%nat (fun _ => 1 / 6) (fun q => 500 / speed tri (fun _ => 10) 0 q).
Proof.
  assert (One : forall q, In q [0; 1; 2]%nat -> feval tri (fun _ => 1) q = 1).
  { intros q [E|[E|[E|[]]]]; subst q; unfold feval, integral, tri; cbn; lra. }
  assert (NN : forall n q, In n (sp_nodes tri) -> In q [0; 1; 2]%nat -> 0 <= sp_basis tri n q).
  { intros n q _ _. cbn. destruct (Nat.eqb n q); lra. }
  destruct (C65_step_2d_mean [0; 1; 2]%nat (fun _ => 1 / 6) tri) with
    (csize := fun _ : nat => 500) (bath := fun _ : nat => 10) (u_scale := 0)
    (owned := [[0]; [1; 2]]%nat) (sol := fun _ : nat => 500 / (sqrt (981 / 100 * 10) + 0))
    (flags := [None; Some true]) (timestep := @None R) (cfl := 1) (alpha := 5 / 100)
    as (dt & E & _ & _ & H); try lra.
  - intros; lra.
  - exact NN.
  - exact One.
  - apply (C65_uniform [0; 1; 2]%nat (fun _ => 1 / 6) tri (fun _ => 500) (fun _ => 10) 0 One 500 10);
      [reflexivity|reflexivity|lra].
  - intros n. cbn. tauto.
  - discriminate.
  - intros l [Q|[Q|[]]]; subst; discriminate.
  - right. left. reflexivity.
  - exists dt. split; [exact E|exact H].
Qed.
