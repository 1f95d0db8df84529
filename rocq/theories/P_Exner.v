(** C75: the bed budget of the Exner equation, what its boundaries let through,
    the slide term, and the sediment total of bed and suspension together. *)
From Coq Require Import Reals List String Bool Arith Lra.
From Verif Require Import Forms_Model Forms_Spec Forms_Proofs Forms_Examples P_Tracer2d
  Sediment_Model P_Sediment Exner_Model.
Import ListNotations.
Open Scope list_scope.
Open Scope R_scope.

Section Bed.
Context {V F B : Type}.
Variable E : swe_env V F B.
Variable X : exner_env V F B.
Notation M := (e_mesh E).
Notation one := (@const_s V F B 1).
Implicit Types (test z sed elev c phi : sfield V F B).

(** ** Specification *)

(** float() accepts every value it is applied to: numbers for all keys but
    'elev', a pair of numbers for 'uv'. *)
Definition readable (kv : string * bval) : Prop :=
  match kv with
  | (k, BNum _) => k <> "uv"%string
  | (k, BVec _ _) => k = "elev"%string \/ k = "uv"%string
  | (k, BExpr) => k = "elev"%string
  end.
(** A marker lets bedload through: it has conditions, none of them zero. *)
Definition open_marker (bc : swe_bcs) (k : nat) : Prop :=
  exists funcs, In (k, funcs) bc /\ ~ exists kv, In kv funcs /\ zero_value kv.
Definition decides (bc : swe_bcs) (op : nat -> bool) : Prop :=
  forall k, op k = true <-> open_marker bc k.
(** Bedload leaving through a boundary point per unit length, as bed volume. *)
Definition bed_outflux (op : nat -> bool) (b : B) : R :=
  if op (m_marker M b) then dot2 (x_qb_b X b) (m_nb M b) else 0.

(** ** The bedload term *)
Lemma closed_boundary_readable : forall funcs acc,
  (exists b, closed_boundary funcs acc = Some b) <-> (forall kv, In kv funcs -> readable kv).
Proof.
  induction funcs as [|[k v] l IH]; intro acc.
  - split; [intros _ kv []|intros _; exists acc; reflexivity].
  - cbn [closed_boundary].
    destruct (String.eqb_spec k "elev") as [K1|K1]; destruct (String.eqb_spec k "uv") as [K2|K2];
      cbn [orb negb].
    + subst. discriminate K2.
    + rewrite IH. split.
      * intros H kv [<-|Hi]; [|exact (H kv Hi)]. destruct v; cbn; [exact K2|left; exact K1|exact K1].
      * intros H kv Hi. apply H. right. exact Hi.
    + destruct v as [x|x y|].
      * split; [intros [b Q]; discriminate Q|]. intro H. exfalso. exact (H _ (or_introl eq_refl) K2).
      * rewrite IH. split.
        -- intros H kv [<-|Hi]; [right; exact K2|exact (H kv Hi)].
        -- intros H kv Hi. apply H. right. exact Hi.
      * split; [intros [b Q]; discriminate Q|]. intro H. exfalso. exact (K1 (H _ (or_introl eq_refl))).
    + destruct v as [x|x y|].
      * rewrite IH. split.
        -- intros H kv [<-|Hi]; [exact K2|exact (H kv Hi)].
        -- intros H kv Hi. apply H. right. exact Hi.
      * split; [intros [b Q]; discriminate Q|]. intro H. exfalso.
        destruct (H _ (or_introl eq_refl)); contradiction.
      * split; [intros [b Q]; discriminate Q|]. intro H. exfalso. exact (K1 (H _ (or_introl eq_refl))).
Qed.

Lemma bedload_boundary_some : forall bc test,
  (exists r, bedload_boundary E X bc test = Some r) <->
  (forall k funcs kv, In (k, funcs) bc -> In kv funcs -> readable kv).
Proof.
  induction bc as [|[k funcs] l IH]; intro test.
  - split; [intros _ k funcs kv []|intros _; exists 0; reflexivity].
  - cbn [bedload_boundary]. pose proof (closed_boundary_readable funcs false) as C.
    destruct (closed_boundary funcs false) as [nc|] eqn:Ec.
    + destruct (bedload_boundary E X l test) as [f|] eqn:Eb.
      * split; [|intros _; eexists; reflexivity]. intros _ k' fs kv [Q|Q] Hkv.
        -- injection Q as <- <-. apply (proj1 C); [exists nc; reflexivity|exact Hkv].
        -- refine (proj1 (IH test) _ k' fs kv Q Hkv). exists f. exact Eb.
      * split; [intros [r Q]; discriminate Q|]. intro H. exfalso.
        destruct (proj2 (IH test)) as [r Hr].
        { intros k' fs kv Q. apply (H k'). right. exact Q. }
        rewrite Eb in Hr. discriminate Hr.
    + split; [intros [r Q]; discriminate Q|]. intro H. exfalso.
      destruct (proj2 C) as [r Hr]; [|discriminate Hr].
      intros kv Q. apply (H k funcs); [left; reflexivity|exact Q].
Qed.

(** The bedload term can be built exactly when all the shallow water boundary
    values except elevations are plain numbers. *)
Theorem C75_bedload_builds : forall bc test,
  (exists r, bedload_form E X bc test = Some r) <->
  (forall k funcs kv, In (k, funcs) bc -> In kv funcs -> readable kv).
Proof.
  intros bc test. rewrite <- (bedload_boundary_some bc test). unfold bedload_form.
  destruct (bedload_boundary E X bc test) as [f|].
  - split; intros _; eexists; reflexivity.
  - split; intros [r Q]; discriminate Q.
Qed.

Lemma bedload_boundary_sum : forall bc test r op, NoDup (map fst bc) -> decides bc op ->
  bedload_boundary E X bc test = Some r ->
  r = - ds M (fun b => fac X * (s_b test b * bed_outflux op b)).
Proof.
  intros bc test. induction bc as [|[k funcs] l IH]; intros r op Hn Hop H; cbn [bedload_boundary] in H.
  - injection H as <-. rewrite (ds_zero M); [ring|]. intros b _. unfold bed_outflux.
    destruct (op (m_marker M b)) eqn:Eo; [|ring]. apply Hop in Eo. destruct Eo as (fs & [] & _).
  - destruct (closed_boundary funcs false) as [nc|] eqn:Ec; [|discriminate H].
    destruct (bedload_boundary E X l test) as [f|] eqn:Eb; [|discriminate H].
    injection H as <-. cbn [map fst] in Hn. apply NoDup_cons_iff in Hn. destruct Hn as [Hk Hn].
    pose proof (C43_closed_boundaries _ _ Ec) as C.
    set (op' := fun j => if Nat.eqb j k then false else op j).
    assert (Hop' : decides l op').
    { intro j. unfold op'. destruct (Nat.eqb_spec j k) as [->|Hj].
      - split; [intro Q; discriminate Q|]. intros (fs & Q & _). exfalso. apply Hk.
        apply in_map_iff. exists (k, fs). split; [reflexivity|exact Q].
      - rewrite (Hop j). split; intros (fs & Q & Z); exists fs; (split; [|exact Z]).
        + destruct Q as [Q|Q]; [|exact Q]. exfalso. apply Hj. injection Q as <- _. reflexivity.
        + right. exact Q. }
    rewrite (IH f op' Hn Hop' eq_refl).
    assert (Hok : op k = negb nc).
    { destruct nc; cbn [negb].
      - destruct (op k) eqn:Q; [|reflexivity]. apply Hop in Q. destruct Q as (fs & [Q|Q] & Z).
        + injection Q as <-. exfalso. apply Z. apply C. reflexivity.
        + exfalso. apply Hk. apply in_map_iff. exists (k, fs). split; [reflexivity|exact Q].
      - apply Hop. exists funcs. split; [left; reflexivity|]. intro Z. apply C in Z. discriminate Z. }
    unfold ds_on, ds.
    assert (Q : (if nc then 0 else integral (m_bnds M) (m_wb M) (fun b => if Nat.eqb (m_marker M b) k then
        - s_b test b * (fac X * fst (x_qb_b X b) * fst (m_nb M b) + fac X * snd (x_qb_b X b) * snd (m_nb M b)) else 0))
      = integral (m_bnds M) (m_wb M) (fun b => if Nat.eqb (m_marker M b) k then
          (if nc then 0 else - (fac X * (s_b test b * dot2 (x_qb_b X b) (m_nb M b)))) else 0)).
    { destruct nc.
      - symmetry. apply integral_zero. intros b _. destruct (Nat.eqb (m_marker M b) k); reflexivity.
      - apply integral_ext. intros b _. destruct (Nat.eqb (m_marker M b) k); [|reflexivity].
        unfold dot2. ring. }
    rewrite Q. rewrite <- !integral_opp, <- integral_plus. apply integral_ext. intros b _.
    unfold bed_outflux, op'. destruct (Nat.eqb_spec (m_marker M b) k) as [Em|Em].
    + rewrite Em, Hok. destruct nc; cbn [negb]; ring.
    + destruct (op (m_marker M b)); ring.
Qed.

(** The bedload term is the weak form of the divergence of the transport, with
    flux through the open boundaries and none through the others. *)
Theorem C75_bedload_weak_form : forall bc test r op, NoDup (map fst bc) -> decides bc op ->
  bedload_form E X bc test = Some r ->
  r = fac X * (ds M (fun b => s_b test b * bed_outflux op b)
               - dx M (fun p => dot2 (x_qb_v X p) (s_gv test p))).
Proof.
  intros bc test r op Hn Hop H. unfold bedload_form in H.
  destruct (bedload_boundary E X bc test) as [f|] eqn:Eb; [|discriminate H].
  injection H as <-. rewrite (bedload_boundary_sum bc test f op Hn Hop Eb).
  unfold ds at 1. rewrite (integral_scal _ _ (fac X)).
  assert (Q : dx M (fun p => fac X * fst (x_qb_v X p) * fst (s_gv test p) + fac X * snd (x_qb_v X p) * snd (s_gv test p))
    = fac X * dx M (fun p => dot2 (x_qb_v X p) (s_gv test p))).
  { unfold dx. rewrite <- integral_scal. apply integral_ext. intros p _. unfold dot2. ring. }
  rewrite Q. unfold ds. ring.
Qed.

(** Bedload only moves the bed around: the total changes by what crosses the open
    boundaries. *)
Theorem C75_bedload_budget : forall bc r op, NoDup (map fst bc) -> decides bc op ->
  bedload_form E X bc one = Some r -> r = fac X * ds M (bed_outflux op).
Proof.
  intros bc r op Hn Hop H. rewrite (C75_bedload_weak_form bc one r op Hn Hop H).
  rewrite (dx_zero M); [|intros p _; cbn [const_s s_gv]; apply dot2_zero_r].
  unfold ds. rewrite (integral_ext _ _ (fun b => s_b one b * bed_outflux op b) (bed_outflux op)); [ring|].
  intros b _. cbn [const_s s_b]. ring.
Qed.

(** Where the Shields number stays below the critical one nothing moves. *)
Theorem C75_bedload_threshold : forall bc test r o iv ib,
  (forall p, x_qb_v X p = bedload o (iv p)) -> (forall b, x_qb_b X b = bedload o (ib b)) ->
  (forall p, thetaprime (iv p) < bl_thetacr (iv p)) -> (forall b, thetaprime (ib b) < bl_thetacr (ib b)) ->
  bedload_form E X bc test = Some r -> r = 0.
Proof.
  intros bc test r o iv ib Hv Hb Tv Tb H.
  assert (Z : forall i, thetaprime i < bl_thetacr i -> bedload o i = (0, 0)).
  { intros i Hi. unfold bedload, phi. destruct (Rlt_dec (thetaprime i) (bl_thetacr i)); [|contradiction].
    destruct (andb (o_angle o) (negb (o_secondary o))), (o_secondary o); f_equal; ring. }
  unfold bedload_form in H. destruct (bedload_boundary E X bc test) as [f|] eqn:Eb; [|discriminate H].
  injection H as <-. rewrite (dx_zero M).
  2:{ intros p _. rewrite (Hv p), (Z _ (Tv p)). cbn [fst snd]. ring. }
  assert (f = 0) as ->; [|ring]. revert f Eb.
  induction bc as [|[k funcs] l IH]; intros f Eb; cbn [bedload_boundary] in Eb.
  - injection Eb as <-. reflexivity.
  - destruct (closed_boundary funcs false) as [nc|]; [|discriminate Eb].
    destruct (bedload_boundary E X l test) as [f'|]; [|discriminate Eb].
    injection Eb as <-. rewrite (IH f' eq_refl). destruct nc; [ring|].
    unfold ds_on. rewrite (ds_zero M); [ring|]. intros b _.
    rewrite (Hb b), (Z _ (Tb b)). cbn [fst snd]. destruct (Nat.eqb (m_marker M b) k); ring.
Qed.

(** ** The slide term *)
Definition continuous (q : sfield V F B) : Prop :=
  forall f, In f (m_facets M) -> s_f q f true = s_f q f false.
Lemma jump_continuous : forall q f, continuous q -> In f (m_facets M) -> jump_n M q f = (0, 0).
Proof.
  intros q f H Hf. unfold jump_n, normal. cbn [fst snd]. rewrite (H f Hf). f_equal; ring.
Qed.

(** On the continuous spaces the solver accepts it is a diffusion of the bed with
    coefficient [- x_slide_v]. *)
Theorem C75_slide_continuous : forall test z, continuous test -> continuous z ->
  slide_form E X test z = dx M (fun p => x_slide_v X p * dot2 (s_gv test p) (s_gv z p)).
Proof.
  intros test z Ht Hz. unfold slide_form.
  rewrite !(dS_zero M).
  2:{ intros f Hf. rewrite (jump_continuous test f Ht Hf), dot2_zero_l. ring. }
  2:{ intros f Hf. rewrite (jump_continuous z f Hz Hf), dot2_zero_r. ring. }
  2:{ intros f Hf. rewrite (jump_continuous test f Ht Hf), dot2_zero_l. ring. }
  rewrite !Rplus_0_r. unfold dx. rewrite <- integral_opp. apply integral_ext. intros p _.
  unfold dot2, scal2; cbn [fst snd]. ring.
Qed.

(** It never changes the total, whatever the bed. *)
Theorem C75_slide_budget : forall z, slide_form E X one z = 0.
Proof.
  intro z. unfold slide_form.
  assert (J : forall f, jump_n M one f = (0, 0)).
  { intro f. unfold jump_n, normal; cbn [const_s s_f fst snd]. f_equal; ring. }
  rewrite (dx_zero M); [|intros p _; cbn [const_s s_gv]; apply dot2_zero_l].
  rewrite !(dS_zero M); [ring| | |].
  - intros f _. rewrite J, dot2_zero_l. ring.
  - intros f _. cbn [const_s s_gf]. unfold dot2, scal2, add2; cbn [fst snd]. ring.
  - intros f _. rewrite J, dot2_zero_l. ring.
Qed.

(** It flattens: the mean square of the bed level does not grow where the
    coefficient has its intended sign, and the term is zero on a bed with no
    slope above the maximal angle. *)
Theorem C75_slide_flattens : forall z, positive_weights M -> continuous z ->
  (forall p, In p (m_cells M) -> x_slide_v X p <= 0) -> slide_form E X z z <= 0.
Proof.
  intros z (Hw & _ & _) Hz Hd. rewrite (C75_slide_continuous z z Hz Hz).
  apply Ropp_le_cancel. rewrite Ropp_0. unfold dx. rewrite <- integral_opp.
  apply integral_nonneg.
  - intros p Hp. apply Rlt_le, Hw, Hp.
  - intros p Hp. pose proof (dot2_self (s_gv z p)). specialize (Hd p Hp). nra.
Qed.
Theorem C75_slide_stable_bed : forall test z ma L dt, continuous test -> continuous z ->
  (forall p, x_slide_v X p = slide_coefficient ma L (x_porosity X) dt (x_morfac X)
               (fst (s_gv z p)) (snd (s_gv z p))) ->
  (forall p, In p (m_cells M) ->
     slope_tan (fst (s_gv z p)) (snd (s_gv z p)) <= tan (ma * PI / 180)) ->
  slide_form E X test z = 0.
Proof.
  intros test z ma L dt Ht Hz Hx Hs. rewrite (C75_slide_continuous test z Ht Hz).
  apply (dx_zero M). intros p Hp. rewrite (Hx p), (C43_slide_only_steep _ _ _ _ _ _ _ (Hs p Hp)). ring.
Qed.

(** ** The bed as a whole *)
(** Total change of the bathymetry: erosion minus deposition in the domain plus
    bedload leaving through open boundaries, times morfac / (1 - porosity). *)
Theorem C75_bed_budget : forall bc z sed elev r op, NoDup (map fst bc) -> decides bc op ->
  exner_residual E X bc one z sed elev = Some r ->
  r = fac X * ((if x_suspended X then
                  dx M (fun p => x_erosion X p
                    - x_depo X p * s_v sed p / (if x_integrated X then hv E elev p else 1))
                else 0)
               + (if x_bedload X then ds M (bed_outflux op) else 0)).
Proof.
  intros bc z sed elev r op Hn Hop H. unfold exner_residual in H.
  destruct (if x_bedload X then bedload_form E X bc one else Some 0) as [b|] eqn:Eb; [|discriminate H].
  injection H as <-.
  assert (Hb : b = fac X * (if x_bedload X then ds M (bed_outflux op) else 0)).
  { destruct (x_bedload X); [exact (C75_bedload_budget bc b op Hn Hop Eb)|]. injection Eb as <-. ring. }
  rewrite Hb, C75_slide_budget.
  assert (Hs : (if x_suspended X then exner_source_form E X one sed elev else 0) = fac X *
    (if x_suspended X then dx M (fun p => x_erosion X p
                    - x_depo X p * s_v sed p / (if x_integrated X then hv E elev p else 1)) else 0)).
  { destruct (x_suspended X); [|ring]. unfold exner_source_form, dx. rewrite <- integral_scal.
    apply integral_ext. intros p _. unfold exner_source, fac. cbn [const_s s_v].
    destruct (x_integrated X); unfold Rdiv; rewrite ?Rinv_1; ring. }
  rewrite Hs. destruct (x_slide X); ring.
Qed.

(** A closed domain without suspended sediment keeps its bed volume. *)
Theorem C75_closed_bed : forall bc z sed elev r, NoDup (map fst bc) ->
  (forall k, ~ open_marker bc k) -> x_suspended X = false ->
  exner_residual E X bc one z sed elev = Some r -> r = 0.
Proof.
  intros bc z sed elev r Hn Hc Hs H.
  rewrite (C75_bed_budget bc z sed elev r (fun _ => false) Hn) by
    first [exact H | intro k; split; [intro Q; discriminate Q|intro Q; destruct (Hc k Q)]].
  rewrite Hs. rewrite (ds_zero M) by reflexivity. destruct (x_bedload X); ring.
Qed.

(** ** Bed and suspension together *)
(** With the conservative form, both equations at the same state: what the
    suspension and the bed (converted to sediment volume by (1 - porosity) /
    morfac; the bathymetry counts downwards) gain together is what enters through
    the boundary: no sediment is made or lost by the exchange. *)
Theorem C75_total_sediment : forall T bc z c uv elev gext r op,
  NoDup (map fst bc) -> decides bc op -> x_suspended X = true -> x_integrated X = true ->
  x_morfac X <> 0 -> x_porosity X <> 1 ->
  exner_residual E X bc one z c elev = Some r ->
  sediment_residual E X true T one c uv elev gext + (1 - x_porosity X) / x_morfac X * - r
  = - ds M (outflux E T c uv elev)
    + match t_mu T with Some mu => ds M (diff_influx E T mu c uv elev gext) | None => 0 end
    - (if x_bedload X then ds M (bed_outflux op) else 0).
Proof.
  intros T bc z c uv elev gext r op Hn Hop Hs Hi Hm Hp H.
  rewrite (C75_bed_budget bc z c elev r op Hn Hop H), Hs, Hi.
  unfold sediment_residual. rewrite C50_conservative_budget.
  assert (HD : tracer_diffusion E T one c uv elev gext =
    match t_mu T with Some mu => ds M (diff_influx E T mu c uv elev gext) | None => 0 end).
  { destruct (t_mu T) as [mu|] eqn:Em; [exact (C50_diffusion_budget E T mu c uv elev gext Em)|].
    unfold tracer_diffusion. rewrite Em. reflexivity. }
  rewrite HD.
  assert (HX : erosion_form E X true one elev + deposition_form E X one c elev
    = dx M (fun p => x_erosion X p - x_depo X p * s_v c p / hv E elev p)).
  { unfold erosion_form, deposition_form, dx. rewrite <- integral_plus. apply integral_ext.
    intros p _. unfold sediment_erosion, sediment_deposition. cbn [const_s s_v]. unfold Rdiv. ring. }
  set (G := match t_mu T with Some _ => _ | None => _ end).
  set (W := dx M (fun p => x_erosion X p - x_depo X p * s_v c p / hv E elev p)) in *.
  set (Q := if x_bedload X then _ else _).
  replace ((1 - x_porosity X) / x_morfac X * - (fac X * (W + Q))) with (- (W + Q))
    by (unfold fac; field; split; first [exact Hm | let Z := fresh in intro Z; apply Hp; lra]).
  rewrite <- HX. ring.
Qed.

(** A closed basin keeps its sediment. *)
Theorem C75_closed_basin : forall T bc z c uv elev gext r,
  NoDup (map fst bc) -> (forall k, ~ open_marker bc k) ->
  (forall k, t_bnd T k = None) -> (forall b, In b (m_bnds M) -> unb M uv b = 0) ->
  x_suspended X = true -> x_integrated X = true -> x_morfac X <> 0 -> x_porosity X <> 1 ->
  exner_residual E X bc one z c elev = Some r ->
  sediment_residual E X true T one c uv elev gext + (1 - x_porosity X) / x_morfac X * - r = 0.
Proof.
  intros T bc z c uv elev gext r Hn Hc Ht Hu Hs Hi Hm Hp H.
  assert (D : decides bc (fun _ => false)).
  { intro k. split; [intro Q; discriminate Q|intro Q; destruct (Hc k Q)]. }
  rewrite (C75_total_sediment T bc z c uv elev gext r (fun _ => false) Hn D Hs Hi Hm Hp H).
  rewrite (ds_zero M (outflux E T c uv elev)).
  2:{ intros b Hb. unfold outflux. rewrite (Ht (m_marker M b)), (Hu b Hb). ring. }
  rewrite (ds_zero M (bed_outflux (fun _ => false))) by reflexivity.
  destruct (t_mu T) as [mu|].
  - rewrite (ds_zero M (diff_influx E T mu c uv elev gext)); [destruct (x_bedload X); ring|].
    intros b _. unfold diff_influx. rewrite (Ht (m_marker M b)). reflexivity.
  - destruct (x_bedload X); ring.
Qed.

(** ** A time step *)
(** mass_term with the test function 1 *)
Definition total (q : sfield V F B) : R := dx M (fun p => s_v q p).
(** Both equations advanced with the theta scheme of CrankNicolson
    (timeintegrator.py:209-212: residuals at the new and at the old state, the same
    coefficients, morphodynamic step after the sediment step) in a closed basin: the
    sediment in suspension plus that in the bed is unchanged, for any theta and time
    step. *)
Theorem C75_theta_step : forall T bc theta dt c0 c1 z0 z1 uv0 uv1 elev0 elev1 g0 g1 r0 r1,
  NoDup (map fst bc) -> (forall k, ~ open_marker bc k) -> (forall k, t_bnd T k = None) ->
  (forall b, In b (m_bnds M) -> unb M uv0 b = 0 /\ unb M uv1 b = 0) ->
  x_suspended X = true -> x_integrated X = true -> x_morfac X <> 0 -> x_porosity X <> 1 ->
  total c1 - total c0 = dt * (theta * sediment_residual E X true T one c1 uv1 elev1 g1
                              + (1 - theta) * sediment_residual E X true T one c0 uv0 elev0 g0) ->
  exner_residual E X bc one z1 c1 elev1 = Some r1 ->
  exner_residual E X bc one z0 c0 elev0 = Some r0 ->
  total z1 - total z0 = dt * (theta * r1 + (1 - theta) * r0) ->
  total c1 - (1 - x_porosity X) / x_morfac X * total z1
  = total c0 - (1 - x_porosity X) / x_morfac X * total z0.
Proof.
  intros T bc theta dt c0 c1 z0 z1 uv0 uv1 elev0 elev1 g0 g1 r0 r1 Hn Hc Ht Hu Hs Hi Hm Hp Sc S1 S0 Sz.
  pose proof (C75_closed_basin T bc z1 c1 uv1 elev1 g1 r1 Hn Hc Ht (fun b Hb => proj2 (Hu b Hb)) Hs Hi Hm Hp S1) as A1.
  pose proof (C75_closed_basin T bc z0 c0 uv0 elev0 g0 r0 Hn Hc Ht (fun b Hb => proj1 (Hu b Hb)) Hs Hi Hm Hp S0) as A0.
  set (k := (1 - x_porosity X) / x_morfac X) in *.
  replace (total c1) with (total c0 + dt * (theta * sediment_residual E X true T one c1 uv1 elev1 g1
                              + (1 - theta) * sediment_residual E X true T one c0 uv0 elev0 g0)) by lra.
  replace (total z1) with (total z0 + dt * (theta * r1 + (1 - theta) * r0)) by lra.
  replace (sediment_residual E X true T one c1 uv1 elev1 g1) with (k * r1) by lra.
  replace (sediment_residual E X true T one c0 uv0 elev0 g0) with (k * r0) by lra. ring.
Qed.

(** ** Boundary conditions of the suspended sediment *)
(** Without 'equilibrium' they are those of a tracer; 'equilibrium' and 'value'
    together are refused; 'equilibrium' alone gives the equilibrium concentration,
    times the depth at the boundary elevation in the conservative form. *)
Theorem C75_sediment_boundary : forall cons eq factor elev (d : bdict) tb,
  tracer_bnd factor d = inl tb ->
  (bget "equilibrium" d = None -> sediment_bnd E cons eq factor elev d = inl tb) /\
  (bget "equilibrium" d <> None -> bget "value" d <> None ->
     sediment_bnd E cons eq factor elev d = inr Both) /\
  (bget "equilibrium" d <> None -> bget "value" d = None ->
     exists tb', sediment_bnd E cons eq factor elev d = inl tb' /\
       tb_uv tb' = tb_uv tb /\ tb_elev tb' = tb_elev tb /\ tb_diff_flux tb' = tb_diff_flux tb /\
       forall c_in b, c_ext tb' c_in b =
         eq b * (if cons then e_depth E (e_bath_b E b)
                   (match tb_elev tb with Some h => h b | None => s_b elev b end) else 1)).
Proof.
  intros cons eq factor elev d tb H. unfold sediment_bnd. rewrite H. split; [|split].
  - intros ->. reflexivity.
  - intros A C. destruct (bget "equilibrium" d); [|contradiction].
    destruct (bget "value" d); [reflexivity|contradiction].
  - intros A C. destruct (bget "equilibrium" d); [|contradiction]. rewrite C.
    eexists. split; [reflexivity|]. cbn [tb_uv tb_elev tb_diff_flux]. do 3 (split; [reflexivity|]).
    intros c_in b'. unfold c_ext; cbn [tb_value]. unfold hb. destruct cons; ring.
Qed.

(** Water coming in brings the equilibrium load with it; water going out takes the
    interior one. *)
Theorem C75_equilibrium_inflow : forall T eq factor elev (d : bdict) tb c uv b,
  bget "equilibrium" d <> None -> sediment_bnd E true eq factor elev d = inl tb ->
  bget "uv" d = None -> bget "un" d = None -> bget "flux" d = None -> bget "elev" d = None ->
  t_bnd T (m_marker M b) = Some tb ->
  (unb M uv b < 0 -> outflux E T c uv elev b = eq b * hb E (s_b elev) b * unb M uv b) /\
  (0 < unb M uv b -> outflux E T c uv elev b = s_b c b * unb M uv b).
Proof.
  intros T eq factor elev d tb c uv b He Hs Huv Hun Hfl Hel Hb.
  unfold sediment_bnd in Hs. destruct (tracer_bnd factor d) as [tb0|e] eqn:Et; [|discriminate Hs].
  destruct (bget "equilibrium" d); [|contradiction].
  destruct (bget "value" d) eqn:Ev; [discriminate Hs|]. injection Hs as <-.
  assert (U : tb_uv tb0 = USym /\ tb_elev tb0 = None).
  { unfold tracer_bnd in Et. rewrite Huv, Hfl, Hun, Hel, Ev in Et. cbn [opt_scalar bindb] in Et.
    destruct (opt_scalar (bget "diff_flux" d)) as [df|]; cbn [bindb] in Et; [|discriminate Et].
    injection Et as <-. split; reflexivity. }
  destruct U as [U1 U2].
  destruct (C50_upwind_boundary E T c uv elev b _ Hb U1) as [A1 A2]. split; [|exact A1].
  intro Q. rewrite (A2 Q). unfold c_ext; cbn [tb_value]. rewrite U2. reflexivity.
Qed.
End Bed.

(** ** Concrete cases *)
(** Two cells, depth 10, half of the bed is pore space, morfac 4. *)
Definition wet : swe_env nat nat nat := env_of (fun _ => Closed) (fun h e => h + e) None.
Definition xbed (q : R * R) (D : R) : exner_env nat nat nat :=
  mk_xenv 4 (1 / 2) true (fun _ => 3) (fun _ => 2) (fun _ => q) (fun _ => q)
    (fun _ => D) (fun _ _ => D) (fun _ _ => 1) true true true.
Definition west_east : swe_bcs := [(1%nat, [("flux"%string, BNum (-5))]); (3%nat, [("elev"%string, BNum 0)])].

Lemma west_east_open : decides west_east (fun k => Nat.eqb k 1 || Nat.eqb k 3)%bool.
Proof.
  intro k. split.
  - intro H. apply orb_true_iff in H.
    destruct H as [H|H]; apply Nat.eqb_eq in H; subst k.
    + eexists. split; [left; reflexivity|]. intros (kv & [<-|[]] & Z). cbn in Z. destruct Z as (_ & _ & Z). lra.
    + eexists. split; [right; left; reflexivity|]. intros (kv & [<-|[]] & Z). cbn in Z. destruct Z as (Z & _). apply Z. reflexivity.
  - intros (fs & [Q|[Q|[]]] & _); injection Q as <- _; reflexivity.
Qed.
Lemma west_east_builds : forall q D test, exists r, bedload_form wet (xbed q D) west_east test = Some r.
Proof.
  intros. apply C75_bedload_builds. intros k fs kv [Q|[Q|[]]]; injection Q as <- <-; intros [<-|[]]; cbn; intro; discriminate.
Qed.
(** transport 2 to the east: as much enters at marker 1 as leaves at marker 3 *)
Example C75_case_budget : bedload_form wet (xbed (2, 0) (-1)) west_east (const_s 1) = Some 0.
Proof.
  destruct (west_east_builds (2, 0) (-1) (const_s 1)) as [r Hr]. rewrite Hr. f_equal.
  rewrite (C75_bedload_budget wet (xbed (2, 0) (-1)) west_east r _ ltac:(repeat constructor; cbn; intuition discriminate) west_east_open Hr).
  unfold ds, integral, bed_outflux, dot2. cbn -[Rplus Rmult Rminus Rdiv Ropp IZR]. field.
Qed.
(** with only the eastern end open the bed loses 2 times the factor 8 *)
Example C75_case_outflow : bedload_form wet (xbed (2, 0) (-1)) [(3%nat, [("elev"%string, BNum 0)])] (const_s 1) = Some 16.
Proof.
  unfold bedload_form, bedload_boundary, ds_on, dx, ds, integral, fac.
  cbn -[Rplus Rmult Rminus Rdiv Ropp IZR]. f_equal. field.
Qed.
Example C75_case_closed : exists r,
  exner_residual wet (xbed (2, 0) (-1)) [] (const_s 1) (affine (two 10 11) (two 1 1) (two 0 0)) (const_s 5) (const_s 0) = Some r
  /\ sediment_residual wet (xbed (2, 0) (-1)) true (mk_tenv true None (fun _ => None) None (fun _ _ => 0) None 0)
       (const_s 1) (const_s 5) zero_v (const_s 0) (fun _ => (0, 0)) + (1 - 1 / 2) / 4 * - r = 0.
Proof.
  unfold exner_residual. cbn [xbed x_bedload bedload_form bedload_boundary]. eexists. split; [reflexivity|].
  eapply (C75_closed_basin wet (xbed (2, 0) (-1)) _ [] (affine (two 10 11) (two 1 1) (two 0 0))).
  - constructor.
  - intros k (fs & [] & _).
  - reflexivity.
  - intros b _. unfold unb, vb, dot2; cbn. ring.
  - reflexivity.
  - reflexivity.
  - cbn; lra.
  - cbn; lra.
  - unfold exner_residual. cbn [xbed x_bedload bedload_form bedload_boundary]. reflexivity.
Qed.
(** a bed that slopes by 1 everywhere is flattened *)
Example C75_case_slide : slide_form wet (xbed (0, 0) (-1)) (affine (two 10 11) (two 1 1) (two 0 0))
  (affine (two 10 11) (two 1 1) (two 0 0)) = -2
  /\ continuous wet (affine (two 10 11) (two 1 1) (two 0 0)).
Proof.
  assert (C : continuous wet (affine (two 10 11) (two 1 1) (two 0 0))).
  { intros f _. cbn -[Rplus Rmult Rminus Rdiv Ropp IZR]. field. }
  split; [|exact C]. rewrite (C75_slide_continuous _ _ _ _ C C). unfold dx, integral, dot2.
  cbn -[Rplus Rmult Rminus Rdiv Ropp IZR]. ring.
Qed.

(** ** What does not hold *)
(** On a discontinuous space the interface terms have the wrong sign: with the
    diffusive coefficient -1 the deeper cell gets deeper. The solver refuses such
    spaces. *)
Theorem C75_slide_discontinuous_refuted : exists (z : sfield nat nat nat),
  continuous wet z /\ s_v z 0%nat < s_v z 1%nat /\
  slide_form wet (xbed (0, 0) (-1)) (p0 (two 0 1)) z > 0 /\
  slide_form wet (xbed (0, 0) (-1)) (p0 (two 1 0)) z < 0 /\ exner_allowed "dg" = false.
Proof.
  exists (affine (two 10 11) (two 1 1) (two 0 0)). split; [exact (proj2 C75_case_slide)|].
  split; [cbn; lra|]. split; [|split; [|reflexivity]];
  unfold slide_form, dx, dS, integral, jump_n, normal, avg, dot2, scal2, add2;
  cbn -[Rplus Rmult Rminus Rdiv Ropp IZR]; lra.
Qed.

(** Whether a boundary is closed is settled once, from the values at set-up: a
    flux that is zero then keeps the boundary closed when it is switched on. *)
Theorem C75_later_flux_refuted : exists bc0 bc1 r0 r1,
  map fst bc0 = map fst bc1 /\ map (fun kb => map fst (snd kb)) bc0 = map (fun kb => map fst (snd kb)) bc1 /\
  bedload_form wet (xbed (2, 0) (-1)) bc0 (const_s 1) = Some r0 /\
  bedload_form wet (xbed (2, 0) (-1)) bc1 (const_s 1) = Some r1 /\ r0 <> r1.
Proof.
  exists [(3%nat, [("flux"%string, BNum 0)])], [(3%nat, [("flux"%string, BNum 5)])], 0, 16.
  split; [reflexivity|]. split; [reflexivity|].
  unfold bedload_form, bedload_boundary, closed_boundary.
  cbn [negb orb String.eqb Ascii.eqb Bool.eqb].
  destruct (Req_EM_T 0 0) as [_|N]; [|contradiction N; reflexivity].
  destruct (Req_EM_T 5 0) as [N|_]; [lra|].
  split; [|split; [|lra]]; f_equal; unfold ds_on, dx, ds, integral, fac;
  cbn -[Rplus Rmult Rminus Rdiv Ropp IZR]; field.
Qed.

(** A zero drag coefficient next to a given elevation closes the boundary for the
    bedload, although water leaves through it. *)
Theorem C75_zero_drag_refuted : exists r0 r1,
  bedload_form wet (xbed (2, 0) (-1)) [(3%nat, [("elev"%string, BExpr)])] (const_s 1) = Some r0 /\
  bedload_form wet (xbed (2, 0) (-1)) [(3%nat, [("elev"%string, BExpr); ("drag"%string, BNum 0)])] (const_s 1) = Some r1 /\
  r0 = 16 /\ r1 = 0.
Proof.
  exists 16, 0. unfold bedload_form, bedload_boundary, closed_boundary.
  cbn [negb orb String.eqb Ascii.eqb Bool.eqb].
  destruct (Req_EM_T 0 0) as [_|N]; [|contradiction N; reflexivity].
  split; [|split; [|split; reflexivity]]; f_equal; unfold ds_on, dx, ds, integral, fac;
  cbn -[Rplus Rmult Rminus Rdiv Ropp IZR]; field.
Qed.

(** The depth in the Exner source is that of the bed being solved for, the depth in
    the sediment equation that of the bed before the step. When the bed has moved,
    here by 1 at depth 10, the two exchange terms differ and even a closed basin does
    not keep its sediment. *)
Definition moved : swe_env nat nat nat := env_of (fun _ => Closed) (fun h e => h + 1 + e) None.
Theorem C75_moving_bed_refuted : exists c r,
  exner_residual moved (xbed (0, 0) (-1)) [] (const_s 1) (const_s 11) c (const_s 0) = Some r /\
  sediment_residual wet (xbed (0, 0) (-1)) true (mk_tenv true None (fun _ => None) None (fun _ _ => 0) None 0)
       (const_s 1) c zero_v (const_s 0) (fun _ => (0, 0)) + (1 - 1 / 2) / 4 * - r <> 0.
Proof.
  exists (const_s 11).
  unfold exner_residual. cbn [xbed x_bedload bedload_form bedload_boundary]. eexists. split; [reflexivity|].
  cbn [x_suspended x_slide].
  unfold sediment_residual. rewrite C50_conservative_budget, C75_slide_budget.
  rewrite (ds_zero (e_mesh wet)).
  2:{ intros b _. unfold outflux; cbn -[Rplus Rmult]. unfold unb, vb, dot2; cbn. ring. }
  unfold tracer_diffusion; cbn [t_mu].
  unfold erosion_form, deposition_form, exner_source_form, dx, integral, sediment_erosion, sediment_deposition, exner_source, fac, hv.
  cbn -[Rplus Rmult Rminus Rdiv Ropp IZR]. intro H. field_simplify in H. lra.
Qed.

(** cases for the threshold, the stable bed and the equilibrium boundary *)
Definition still : bedload_input := mkBl 1 0 0 0 0 0 0 0 10 (1/100) 0 2650 (1/1000) (1/20) 1 1 1.
Definition xstill : exner_env nat nat nat :=
  mk_xenv 4 (1 / 2) true (fun _ => 3) (fun _ => 2) (fun _ => bedload (mkBo true false false) still)
    (fun _ => bedload (mkBo true false false) still)
    (fun _ => slide_coefficient 45 1 (1 / 2) 1 4 0 0) (fun _ _ => 0) (fun _ _ => 1) true true true.
Example C75_case_threshold : forall test, bedload_form wet xstill west_east test = Some 0.
Proof.
  intro test. destruct (proj2 (C75_bedload_builds wet xstill west_east test)) as [r Hr].
  { intros k fs kv [Q|[Q|[]]]; injection Q as <- <-; intros [<-|[]]; cbn; intro; discriminate. }
  rewrite Hr. f_equal.
  refine (C75_bedload_threshold wet xstill west_east test r (mkBo true false false) (fun _ => still) (fun _ => still)
    (fun _ => eq_refl) (fun _ => eq_refl) _ _ Hr);
  intros _; unfold thetaprime, still; cbn [bl_mu bl_rhos bl_size bl_thetacr]; unfold Rdiv; rewrite !Rmult_0_l; lra.
Qed.
Example C75_case_stable : slide_form wet xstill (affine (two 1 2) (two 1 1) (two 0 0)) (const_s 7) = 0.
Proof.
  apply (C75_slide_stable_bed wet xstill _ _ 45 1 1).
  - intros f _. cbn -[Rplus Rmult Rminus Rdiv Ropp IZR]. field.
  - intros f _. reflexivity.
  - reflexivity.
  - intros p _. cbn [const_s s_gv fst snd]. unfold slope_tan. replace (0 ^ 2 + 0 ^ 2) with 0 by ring. rewrite sqrt_0.
    replace (45 * PI / 180) with (PI / 4) by field. rewrite tan_PI4. lra.
Qed.
Definition inflow_west : vfield nat nat nat := const_v 3 0.
Example C75_case_equilibrium : exists tb : @tbnd nat,
  sediment_bnd wet true (fun _ => 2) (fun _ => 1) (const_s 0) [("equilibrium"%string, BNone)] = inl tb /\
  outflux wet (mk_tenv true None (fun _ => Some tb) None (fun _ _ => 0) None 0) (const_s 5) inflow_west (const_s 0) 0%nat = 2 * 10 * -3.
Proof.
  eexists. split; [reflexivity|].
  match goal with |- outflux wet ?T _ _ _ _ = _ => set (T0 := T) end.
  assert (U : unb (e_mesh wet) inflow_west 0%nat = -3).
  { unfold unb, dot2, vb; cbn -[Rplus Rmult Rminus Rdiv Ropp IZR]. field. }
  assert (Q := proj1 (C75_equilibrium_inflow wet T0 (fun _ => 2) (fun _ => 1) (const_s 0) [("equilibrium"%string, BNone)] _
     (const_s 5) inflow_west 0%nat ltac:(discriminate) eq_refl eq_refl eq_refl eq_refl eq_refl eq_refl)).
  rewrite Q, U by (rewrite U; lra). unfold hb. cbn -[Rplus Rmult Rminus Rdiv Ropp IZR]. ring.
Qed.
Example C75_case_both :
  sediment_bnd wet true (fun _ => 2) (fun _ => 1) (const_s 0)
    [("value"%string, BScalar (fun _ => 1)); ("equilibrium"%string, BNone)] = inr Both.
Proof. reflexivity. Qed.
Print Assumptions C75_theta_step.
Print Assumptions C75_equilibrium_inflow.
