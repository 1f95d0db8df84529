(** What the assembled tracer rows are for piecewise constants, and bounds on them. *)
From Coq Require Import Reals List Bool Arith Lia Lra FunctionalExtensionality.
From Verif Require Import Forms_Model Forms_Spec Forms_Proofs P_SWE P_Tracer2d
  RK_Model RK_Spec RK_Proofs Galerkin_Model Galerkin_Proofs P_Galerkin LinSys_Proofs Variance_Spec P_Variance Bounds_Spec.
Import ListNotations.
Open Scope R_scope.

(* ------------------------------------------------------------------ *)
(** * Steps of systems whose rows are bounded by the distance from the bound *)
Section Monotone.
Variable n : nat.
Variable area : nat -> R.
Hypothesis area_pos : forall K, (K < n)%nat -> 0 < area K.

Lemma explicit_above : forall (r : nat -> R) A tau lo (c c' : nat -> R), 0 <= tau -> above n lo c ->
  (forall K, (K < n)%nat -> - (A K * (c K - lo)) <= r K) ->
  (forall K, (K < n)%nat -> tau * A K <= area K) ->
  (forall K, (K < n)%nat -> area K * c' K = area K * c K + tau * r K) ->
  above n lo c'.
Proof.
  intros r A tau lo c c' Ht Hc Hr Hcfl H K HK.
  specialize (Hr K HK). specialize (Hcfl K HK). specialize (H K HK). specialize (Hc K HK). pose proof (area_pos K HK) as Ha.
  apply (Rmult_le_reg_l (area K)); [exact Ha|]. rewrite H.
  assert (Q1 : tau * (- (A K * (c K - lo))) <= tau * r K) by (apply Rmult_le_compat_l; assumption).
  assert (Q2 : tau * A K * (c K - lo) <= area K * (c K - lo)) by (apply Rmult_le_compat_r; lra).
  lra.
Qed.

Lemma least : forall (c : nat -> R), (0 < n)%nat -> exists K, (K < n)%nat /\ forall L, (L < n)%nat -> c K <= c L.
Proof.
  clear. intros c. induction n as [|m IH]; intro H; [lia|]. destruct m as [|m].
  - exists 0%nat. split; [lia|]. intros L HL. replace L with 0%nat by lia. lra.
  - destruct IH as (K & HK & Hmin); [lia|]. destruct (Rle_dec (c K) (c (S m))) as [Hle|Hgt].
    + exists K. split; [lia|]. intros L HL. destruct (Nat.eq_dec L (S m)) as [->|]; [exact Hle|apply Hmin; lia].
    + exists (S m). split; [lia|]. intros L HL. destruct (Nat.eq_dec L (S m)) as [->|]; [lra|].
      specialize (Hmin L ltac:(lia)). lra.
Qed.

(** at the cell with the least value nothing can be lost *)
Lemma implicit_above : forall (r : nat -> R) tau lo (c c' : nat -> R), 0 <= tau -> above n lo c ->
  (forall m K, (K < n)%nat -> m <= lo -> above n m c' -> c' K = m -> 0 <= r K) ->
  (forall K, (K < n)%nat -> area K * c' K = area K * c K + tau * r K) ->
  above n lo c'.
Proof.
  intros r tau lo c c' Ht Hc Hr H L HL.
  destruct (least c' ltac:(lia)) as (K & HK & Hmin).
  destruct (Rle_dec lo (c' K)) as [Hle|Hlt]; [pose proof (Hmin L HL); lra|exfalso].
  assert (Q : 0 <= r K) by (apply (Hr (c' K)); [exact HK|lra|exact Hmin|reflexivity]).
  specialize (H K HK). specialize (Hc K HK). pose proof (area_pos K HK) as Ha.
  assert (0 <= tau * r K) by (apply Rmult_le_pos; assumption).
  assert (area K * c' K < area K * lo) by (apply Rmult_lt_compat_l; lra).
  assert (area K * lo <= area K * c K) by (apply Rmult_le_compat_l; lra). lra.
Qed.

(** if whatever set of cells gains when they are the negative ones, none is negative *)
Lemma implicit_positive : forall (r : nat -> R) tau (c c' : nat -> R), 0 <= tau -> above n 0 c ->
  (0 <= rsum n (fun K => (if Rlt_dec (c' K) 0 then 1 else 0) * r K)) ->
  (forall K, (K < n)%nat -> area K * c' K = area K * c K + tau * r K) ->
  above n 0 c'.
Proof.
  intros r tau c c' Ht Hc Hr H.
  set (neg := fun K => if Rlt_dec (c' K) 0 then 1 else 0) in *.
  assert (S1 : rsum n (fun K => neg K * (area K * c' K))
             = rsum n (fun K => neg K * (area K * c K)) + tau * rsum n (fun K => neg K * r K)).
  { rewrite <- rsum_scal, <- rsum_plus. apply rsum_ext. intros K HK. rewrite H by exact HK. ring. }
  assert (S2 : 0 <= rsum n (fun K => neg K * (area K * c K))).
  { clear - Hc area_pos. assert (G : forall m, (m <= n)%nat -> 0 <= rsum m (fun K => neg K * (area K * c K))).
    { induction m as [|m IH]; intro Hm; cbn [rsum]; [lra|]. specialize (IH ltac:(lia)).
      assert (0 <= neg m * (area m * c m)); [|lra].
      apply Rmult_le_pos; [unfold neg; destruct (Rlt_dec (c' m) 0); lra|].
      apply Rmult_le_pos; [left; apply area_pos; lia|apply Hc; lia]. }
    apply G. lia. }
  assert (S3 : 0 <= tau * rsum n (fun K => neg K * r K)) by (apply Rmult_le_pos; assumption).
  intros K HK. destruct (Rle_dec 0 (c' K)) as [Hle|Hlt]; [exact Hle|exfalso].
  assert (S4 : rsum n (fun K => neg K * (area K * c' K)) < 0).
  { assert (G : forall m, (m <= n)%nat -> rsum m (fun K => neg K * (area K * c' K)) <= 0 /\
        ((K < m)%nat -> rsum m (fun K => neg K * (area K * c' K)) < 0)).
    { induction m as [|m IH]; intro Hm; cbn [rsum]; [split; [lra|lia]|]. destruct (IH ltac:(lia)) as [I1 I2].
      pose proof (area_pos m ltac:(lia)) as Ha.
      assert (Q : neg m * (area m * c' m) <= 0 /\ (c' m < 0 -> neg m * (area m * c' m) < 0)).
      { unfold neg. destruct (Rlt_dec (c' m) 0) as [Hm0|Hm0]; [|split; [lra|intro; contradiction]].
        assert (area m * c' m < area m * 0) by (apply Rmult_lt_compat_l; assumption). split; intros; lra. }
      destruct Q as [Q1 Q2]. split; [lra|]. intro HKm.
      destruct (Nat.eq_dec K m) as [->|]; [specialize (Q2 ltac:(lra)); lra|specialize (I2 ltac:(lia)); lra]. }
    apply (G n (le_n _)). exact HK. }
  lra.
Qed.
End Monotone.

(* ------------------------------------------------------------------ *)
Section Rows.
Context {V F B : Type}.
Local Notation tcase := (@tcase V F B).
Variable M : mesh V F B.
Variable n : nat.
Variable cell_v : V -> nat.
Variable cell_f : F -> bool -> nat.
Variable cell_b : B -> nat.
Hypothesis Hnum : numbered n cell_v cell_f cell_b.
Notation W := (p0_space n cell_v cell_f cell_b).
Notation Ind := (ind cell_v cell_f cell_b).
Notation P0 := (p0_field cell_v cell_f cell_b).

Lemma comb_sum : forall (c : nat -> R) m L, rsum m (fun K => c K * (if Nat.eqb L K then 1 else 0)) = if Nat.ltb L m then c L else 0.
Proof.
  intros c m L. induction m as [|m IH]; cbn [rsum]; [reflexivity|]. rewrite IH.
  destruct (Nat.eqb_spec L m) as [->|Hne].
  - destruct (Nat.ltb_spec m m); [lia|]. destruct (Nat.ltb_spec m (S m)); [|lia]. ring.
  - destruct (Nat.ltb_spec L m); destruct (Nat.ltb_spec L (S m)); try lia; ring.
Qed.

Lemma comb_ind : forall (c : nat -> R) m, comb m c Ind = P0 (fun L => if Nat.ltb L m then c L else 0).
Proof.
  intros c m. induction m as [|m IH].
  - cbn [comb]. unfold p0_field, const_s. cbn. reflexivity.
  - cbn [comb]. rewrite IH. unfold ind, p0_field, Galerkin_Model.add_s, scale_s, scal2, add2. cbn [s_v s_gv s_f s_gf s_b s_gb fst snd].
    assert (Q : forall L, (if Nat.ltb L m then c L else 0) + c m * (if Nat.eqb L m then 1 else 0) = if Nat.ltb L (S m) then c L else 0).
    { intro L. destruct (Nat.eqb_spec L m) as [->|Hne].
      - destruct (Nat.ltb_spec m m); [lia|]. destruct (Nat.ltb_spec m (S m)); [|lia]. ring.
      - destruct (Nat.ltb_spec L m); destruct (Nat.ltb_spec L (S m)); try lia; ring. }
    f_equal; repeat (apply functional_extensionality; intro); try apply Q; f_equal; ring.
Qed.

(** the field depends on the values in the cells only *)
Lemma p0_ext : forall c d, (forall L, (L < n)%nat -> c L = d L) -> P0 c = P0 d.
Proof.
  intros c d H. destruct Hnum as (N1 & N2 & N3). unfold p0_field.
  f_equal; repeat (apply functional_extensionality; intro); apply H; auto.
Qed.
Lemma tracer_p0 : forall c, tracer_of W c = P0 c.
Proof.
  intro c. unfold tracer_of. cbn [p0_space n_c chi]. rewrite comb_ind. apply p0_ext.
  intros L HL. apply Nat.ltb_lt in HL. rewrite HL. reflexivity.
Qed.

Lemma mass_p0 : forall c K, (K < n)%nat -> tracer_mass W M c K = cell_area M cell_v K * c K.
Proof.
  intros c K HK. unfold tracer_mass. cbn [p0_space n_c chi]. apply Nat.ltb_lt in HK. rewrite HK, tracer_p0.
  unfold cell_area. rewrite Rmult_comm. unfold dx. rewrite <- integral_scal. apply integral_ext. intros p _.
  cbn [ind p0_field s_v]. destruct (Nat.eqb_spec (cell_v p) K) as [->|]; ring.
Qed.

(** diffusion between piecewise constants *)
Definition spreading (k : tcase) (c : nat -> R) (phi : nat -> R) (f : F) : R :=
  match t_mu (tc_T k) with
  | None => 0
  | Some mu => - (psig (tc_T k) f * avg (s_f mu f) * ((phi (cell_f f true) - phi (cell_f f false))
                  * (c (cell_f f true) - c (cell_f f false))))
  end.

Lemma diffusion_p0 : forall k c phi, carries M n cell_v cell_f cell_b k -> unit_normals M ->
  tracer_diffusion (tc_E k) (tc_T k) (P0 phi) (P0 c) (tc_uv k) (tc_elev k) (tc_gext k) = dS M (spreading k c phi).
Proof.
  intros k c phi (Hm & Hd & _ & _ & _ & _ & Hmu) (Hu & _). unfold tracer_diffusion, spreading.
  destruct (t_mu (tc_T k)) as [mu|]; [|symmetry; apply dS_zero; reflexivity]. destruct (Hmu mu eq_refl) as [_ Hb]. clear Hmu.
  rewrite Hm, Hd.
  rewrite (dx_zero M).
  2:{ intros p _. cbn [p0_field s_gv]. apply dot2_zero_l. }
  rewrite (ds_zero M).
  2:{ intros b _. destruct (t_bnd (tc_T k) (m_marker M b)) as [tb|] eqn:Eb; [|reflexivity]. specialize (Hb _ _ Eb).
      destruct (tb_diff_flux tb) as [q|]; [rewrite Hb; ring|]. cbv zeta. cbn [p0_field s_gb].
      assert (G : (match tb_value tb with Some _ => tc_gext k b | None => (0, 0) end) = (0, 0)).
      { destruct (tb_value tb); [apply Hb; discriminate|reflexivity]. }
      rewrite G. unfold dot2, scal2, add2; cbn [fst snd]. ring. }
  rewrite Rplus_0_l, Rplus_0_r. unfold dS. rewrite <- integral_opp. apply integral_ext. intros f Hf. specialize (Hu f Hf).
  cbv zeta. fold (psig (tc_T k) f). cbn [p0_field s_gf].
  assert (scal2 0.5 (add2 (scal2 (s_f mu f true) (0, 0)) (scal2 (s_f mu f false) (0, 0))) = (0, 0)) as ->.
  { unfold scal2, add2; cbn [fst snd]; f_equal; ring. }
  rewrite dot2_zero_l, dot2_zero_r.
  unfold jump_n, normal, scal2, dot2, p0_field in *; cbn [s_f fst snd] in *.
  set (n1 := fst (m_nf M f)) in *. set (n2 := snd (m_nf M f)) in *.
  transitivity (- (psig (tc_T k) f * avg (s_f mu f) * ((phi (cell_f f true) - phi (cell_f f false)) * (c (cell_f f true) - c (cell_f f false)))
                       * (n1 * n1 + n2 * n2))); [|rewrite Hu; ring]. ring.
Qed.

(** ** The non-conservative form *)
Definition carried (k : tcase) (c : nat -> R) (K : nat) (f : F) : R :=
  (c K - (c (cell_f f false) * up_s (tc_T k) (un_av (tc_E k) (tc_uv k) f)
          + c (cell_f f true) * (1 - up_s (tc_T k) (un_av (tc_E k) (tc_uv k) f))))
  * (on K (cell_f f true) * un_f (tc_E k) (tc_uv k) f true + on K (cell_f f false) * un_f (tc_E k) (tc_uv k) f false)
  - lax (tc_T k) f * ((on K (cell_f f true) - on K (cell_f f false)) * (c (cell_f f true) - c (cell_f f false))).

Definition supply (k : tcase) (K : nat) : R :=
  match t_source (tc_T k) with None => 0 | Some s => dx M (fun p => s p * on K (cell_v p)) end.

Lemma rows_split : forall k c K, (K < n)%nat -> carries M n cell_v cell_f cell_b k -> unit_normals M ->
  tvec W false k c K
  = dS M (fun f => carried k c K f + spreading k c (on K) f)
    + ds M (bnd_change (tc_E k) (tc_T k) cell_b c (tc_uv k) K (tc_elev k)) + supply k K.
Proof.
  intros k c K HK Hc Hu. pose proof Hc as (Hm & Hd & Hg & _ & Hb & _).
  unfold tvec, tracer_vector. cbn [p0_space n_c chi]. pose proof HK as HK'. apply Nat.ltb_lt in HK'. rewrite HK', tracer_p0.
  rewrite (advection_split (tc_E k) (tc_T k) cell_v cell_f cell_b c (tc_uv k) (tc_elev k) K Hd); [|rewrite Hm; apply Hg, HK|exact Hb].
  change (Ind K) with (P0 (on K)). rewrite (diffusion_p0 k c (on K) Hc Hu). rewrite Hm.
  assert (ES : tracer_source (tc_E k) (tc_T k) (P0 (on K)) = supply k K).
  { unfold tracer_source, supply. rewrite Hm. destruct (t_source (tc_T k)) as [s|]; [|reflexivity].
    rewrite Ropp_involutive. reflexivity. }
  rewrite ES. unfold dS at 3. rewrite integral_plus. unfold carried, dS. ring.
Qed.

Lemma spreading_bound : forall k c K f lo, (forall L, lo <= c L) ->
  (forall mu, t_mu (tc_T k) = Some mu -> 0 <= psig (tc_T k) f * avg (s_f mu f)) ->
  - (exchange cell_f k K f * (c K - lo)) <= spreading k c (on K) f.
Proof.
  intros k c K f lo Hlo Hx. unfold exchange, spreading. destruct (t_mu (tc_T k)) as [mu|]; [|lra].
  specialize (Hx mu eq_refl). set (x := psig (tc_T k) f * avg (s_f mu f)) in *.
  fold (on K (cell_f f true)). fold (on K (cell_f f false)).
  pose proof (Hlo (cell_f f true)) as H1. pose proof (Hlo (cell_f f false)) as H2. pose proof (Hlo K) as H3.
  set (cp := c (cell_f f true)) in *. set (cm := c (cell_f f false)) in *.
  assert (HP : on K (cell_f f true) = 0 \/ on K (cell_f f true) = 1 /\ cp = c K).
  { unfold on, cp. destruct (Nat.eqb_spec (cell_f f true) K) as [<-|]; [right; split; reflexivity|left; reflexivity]. }
  assert (HM : on K (cell_f f false) = 0 \/ on K (cell_f f false) = 1 /\ cm = c K).
  { unfold on, cm. destruct (Nat.eqb_spec (cell_f f false) K) as [<-|]; [right; split; reflexivity|left; reflexivity]. }
  assert (X1 : 0 <= x * (cp - lo)) by (apply Rmult_le_pos; lra).
  assert (X2 : 0 <= x * (cm - lo)) by (apply Rmult_le_pos; lra).
  assert (X3 : 0 <= x * (c K - lo)) by (apply Rmult_le_pos; lra).
  destruct HP as [->|[-> HP]]; destruct HM as [->|[-> HM]]; try rewrite HP in *; try rewrite HM in *; lra.
Qed.

Definition ext_by (lo : R) (c : nat -> R) (L : nat) : R := if Nat.ltb L n then c L else lo.
Lemma ext_by_in : forall lo c L, (L < n)%nat -> ext_by lo c L = c L.
Proof. intros lo c L HL. unfold ext_by. apply Nat.ltb_lt in HL. now rewrite HL. Qed.
Lemma rows_local : forall cf k c d, (forall L, (L < n)%nat -> c L = d L) -> forall i, tvec W cf k c i = tvec W cf k d i.
Proof.
  intros cf k c d H i. unfold tvec, tracer_vector. rewrite !tracer_p0, (p0_ext c d H). reflexivity.
Qed.

Lemma supply_pos : forall k K, positive_weights M ->
  (forall s, t_source (tc_T k) = Some s -> forall p, 0 <= s p) -> 0 <= supply k K.
Proof.
  intros k K (Hw & _) Hs. unfold supply. destruct (t_source (tc_T k)) as [s|]; [|lra]. specialize (Hs s eq_refl).
  apply integral_nonneg; [intros p Hp; left; apply Hw, Hp|]. intros p _.
  apply Rmult_le_pos; [apply Hs|]. unfold on. destruct (Nat.eqb (cell_v p) K); lra.
Qed.

Lemma integral_scal_r {X : Type} : forall (l : list X) w g r, integral l w (fun x => g x * r) = integral l w g * r.
Proof.
  intros l w g r. rewrite (Rmult_comm _ r), <- integral_scal. apply integral_ext. intros; ring.
Qed.

Lemma rows_above : forall k c K lo, (K < n)%nat -> carries M n cell_v cell_f cell_b k -> unit_normals M -> positive_weights M ->
  above n lo c -> fed_above M lo k ->
  - (intake M cell_f cell_b k K * (c K - lo)) <= tvec W false k c K.
Proof.
  intros k c0 K lo HK Hc Hu Hw Hlo0 (Hv & Hs).
  set (c := ext_by lo c0).
  rewrite (rows_local false k c0 c) by (intros; symmetry; apply ext_by_in; assumption).
  replace (c0 K) with (c K) by (apply ext_by_in; exact HK).
  assert (Hlo : forall L, lo <= c L).
  { intro L. unfold c, ext_by. destruct (Nat.ltb_spec L n); [apply Hlo0; assumption|lra]. }
  clearbody c. clear c0 Hlo0. rewrite (rows_split k c K HK Hc Hu).
  pose proof Hc as (Hm & _ & _ & Hn & _ & Hl & Hmu).
  pose proof (supply_pos k K Hw Hs) as Q0. destruct Hw as (_ & Hw2 & Hw3).
  assert (Q1 : dS M (fun f => - ((inflow_f (tc_E k) (tc_T k) cell_f (tc_uv k) K f + exchange cell_f k K f) * (c K - lo)))
             <= dS M (fun f => carried k c K f + spreading k c (on K) f)).
  { apply integral_le; [intros f H; apply Rlt_le, Hw2, H|]. intros f Hf. unfold normal_continuous in Hn. rewrite Hm in Hn.
    pose proof (facet_bound (tc_E k) (tc_T k) cell_f c (tc_uv k) K f lo (Hn f Hf) (Hl f) Hlo) as P1.
    pose proof (spreading_bound k c K f lo Hlo (fun mu E => proj1 (Hmu mu E) f)) as P2. unfold carried. lra. }
  assert (Q2 : ds M (fun b => - (inflow_b (tc_E k) cell_b (tc_uv k) K b * (c K - lo)))
             <= ds M (bnd_change (tc_E k) (tc_T k) cell_b c (tc_uv k) K (tc_elev k))).
  { apply integral_le; [intros f H; apply Rlt_le, Hw3, H|]. intros b _. apply bnd_bound; [exact Hlo|].
    rewrite Hm. intros tb v E1 E2. apply (Hv b tb v E1 E2). }
  unfold dS in Q1. unfold ds in Q2. rewrite integral_opp, integral_scal_r in Q1.
  rewrite integral_opp, integral_scal_r in Q2. unfold intake, dS, ds in *. lra.
Qed.

(** ** Upper bounds: all values with the opposite sign *)
Definition flip_bnd (tb : @tbnd B) : @tbnd B :=
  mk_tb (match tb_value tb with Some v => Some (fun b => - v b) | None => None end) (tb_uv tb) (tb_elev tb) (tb_diff_flux tb).
Definition flip_env (T : tracer_env V F B) : tracer_env V F B :=
  mk_tenv (t_dg T) (t_lax T) (fun m => option_map flip_bnd (t_bnd T m)) (t_mu T) (t_sigma_f T)
    (match t_source T with Some s => Some (fun p => - s p) | None => None end) (t_sign0 T).
Definition flip (k : tcase) : tcase :=
  mk_tcase (tc_E k) (flip_env (tc_T k)) (tc_uv k) (tc_elev k) (tc_gext k).

Lemma flip_carries : forall k, carries M n cell_v cell_f cell_b k -> carries M n cell_v cell_f cell_b (flip k).
Proof.
  intros k (Hm & Hd & Hg & Hn & Hb & Hl & Hmu). split; [exact Hm|]. split; [exact Hd|]. split; [exact Hg|].
  split; [exact Hn|]. split; [|split; [exact Hl|]].
  - intros b Hin tb Eb. cbn [flip tc_T flip_env t_bnd] in Eb.
    cbn [flip tc_E tc_uv tc_elev] in Hin, Eb |- *. destruct (t_bnd (tc_T k) (m_marker (e_mesh (tc_E k)) b)) as [tb0|] eqn:E0; [|discriminate].
    cbn [option_map] in Eb. injection Eb as <-. exact (Hb b Hin tb0 E0).
  - intros mu Emu. cbn [flip tc_T flip_env t_mu] in Emu. destruct (Hmu mu Emu) as [H1 H2]. split; [exact H1|].
    intros m tb Eb. cbn [flip tc_T flip_env t_bnd] in Eb. destruct (t_bnd (tc_T k) m) as [tb0|] eqn:E0; [|discriminate].
    cbn [option_map] in Eb. injection Eb as <-. specialize (H2 m tb0 E0). cbn [flip_bnd tb_diff_flux tb_value flip tc_gext].
    destruct (tb_diff_flux tb0); [exact H2|]. intro Hne. apply H2. destruct (tb_value tb0); [discriminate|contradiction].
Qed.

Lemma rows_flip : forall k c K, (K < n)%nat -> carries M n cell_v cell_f cell_b k -> unit_normals M ->
  tvec W false (flip k) (fun L => - c L) K = - tvec W false k c K.
Proof.
  intros k c K HK Hc Hu. rewrite (rows_split k c K HK Hc Hu), (rows_split (flip k) (fun L => - c L) K HK (flip_carries k Hc) Hu).
  rewrite !Ropp_plus_distr. f_equal; [f_equal|].
  - unfold dS. rewrite <- integral_opp. apply integral_ext. intros f _. unfold carried, spreading.
    cbn [flip tc_T tc_E tc_uv flip_env t_mu]. change (up_s (flip_env (tc_T k))) with (up_s (tc_T k)).
    change (lax (flip_env (tc_T k))) with (lax (tc_T k)). change (psig (flip_env (tc_T k))) with (psig (tc_T k)).
    destruct (t_mu (tc_T k)); ring.
  - unfold ds. rewrite <- integral_opp. apply integral_ext. intros b _. unfold bnd_change.
    cbn [flip tc_T tc_E tc_uv tc_elev flip_env t_bnd]. change (up_s (flip_env (tc_T k))) with (up_s (tc_T k)).
    destruct (t_bnd (tc_T k) (m_marker (e_mesh (tc_E k)) b)) as [tb|]; cbn [option_map]; [|ring].
    unfold c_ext. cbn [flip_bnd tb_value]. destruct (tb_value tb); ring.
  - unfold supply. cbn [flip tc_T flip_env t_source]. destruct (t_source (tc_T k)) as [s|]; [|ring].
    unfold dx. rewrite <- integral_opp. apply integral_ext. intros; ring.
Qed.

Lemma fed_flip : forall hi k, fed_below M hi k -> fed_above M (- hi) (flip k).
Proof.
  intros hi k (H1 & H2). split.
  - intros b tb v Eb Ev. cbn [flip tc_T flip_env t_bnd] in Eb. destruct (t_bnd (tc_T k) (m_marker M b)) as [tb0|] eqn:E0; [|discriminate].
    cbn [option_map] in Eb. injection Eb as <-. cbn [flip_bnd tb_value] in Ev. destruct (tb_value tb0) as [v0|] eqn:Ev0; [|discriminate].
    injection Ev as <-. pose proof (H1 b tb0 v0 E0 Ev0). lra.
  - intros s Es p. cbn [flip tc_T flip_env t_source] in Es. destruct (t_source (tc_T k)) as [s0|] eqn:E0; [|discriminate].
    injection Es as <-. pose proof (H2 s0 eq_refl p). lra.
Qed.

(** ** The conservative form *)
(** what a set of cells [phi] gains through a facet and through the boundary *)
Definition passed (k : tcase) (c phi : nat -> R) (f : F) : R :=
  (phi (cell_f f true) - phi (cell_f f false))
  * (c (cell_f f false) * up_s (tc_T k) (un_f (tc_E k) (tc_uv k) f false)
     + c (cell_f f true) * (1 - up_s (tc_T k) (un_f (tc_E k) (tc_uv k) f false))) * un_f (tc_E k) (tc_uv k) f false
  - lax (tc_T k) f * ((phi (cell_f f true) - phi (cell_f f false)) * (c (cell_f f true) - c (cell_f f false))).
Definition passed_b (k : tcase) (c phi : nat -> R) (b : B) : R :=
  let q := unb M (tc_uv k) b in
  - phi (cell_b b) * q *
  match t_bnd (tc_T k) (m_marker M b) with
  | None => c (cell_b b)
  | Some tb => c (cell_b b) * up_s (tc_T k) q + c_ext tb (c (cell_b b)) b * (1 - up_s (tc_T k) q)
  end.
Definition supply_cons (k : tcase) (phi : nat -> R) : R :=
  match t_source (tc_T k) with None => 0 | Some s => dx M (fun p => hv (tc_E k) (tc_elev k) p * s p * phi (cell_v p)) end.

Lemma cons_split : forall k c phi, carries M n cell_v cell_f cell_b k -> unit_normals M ->
  cons_advection (tc_E k) (tc_T k) (P0 phi) (P0 c) (tc_uv k) (tc_elev k)
  + tracer_diffusion (tc_E k) (tc_T k) (P0 phi) (P0 c) (tc_uv k) (tc_elev k) (tc_gext k)
  + cons_source (tc_E k) (tc_T k) (P0 phi) (tc_elev k)
  = dS M (fun f => passed k c phi f + spreading k c phi f) + ds M (passed_b k c phi) + supply_cons k phi.
Proof.
  intros k c phi Hc Hu. rewrite (diffusion_p0 k c phi Hc Hu). destruct Hc as (Hm & Hd & _ & Hn & Hb & _).
  assert (ES : cons_source (tc_E k) (tc_T k) (P0 phi) (tc_elev k) = supply_cons k phi).
  { unfold cons_source, supply_cons. rewrite Hm. destruct (t_source (tc_T k)) as [s|]; [|reflexivity].
    rewrite Ropp_involutive. reflexivity. }
  rewrite ES. clear ES. unfold dS at 2. rewrite integral_plus.
  assert (EA : cons_advection (tc_E k) (tc_T k) (P0 phi) (P0 c) (tc_uv k) (tc_elev k)
             = dS M (passed k c phi) + ds M (passed_b k c phi)).
  2:{ rewrite EA. unfold dS. ring. }
  unfold cons_advection. rewrite Hd, Hm.
  rewrite (dx_zero M).
  2:{ intros p _. cbn [p0_field s_gv]. rewrite dot2_zero_l. ring. }
  assert (H3 : match t_lax (tc_T k) with
            | None => 0
            | Some (lf, speed) => dS M (fun f => 0.5 * speed f * lf * (jump (s_f (P0 phi) f) * jump (s_f (P0 c) f)))
            end = dS M (fun f => lax (tc_T k) f * ((phi (cell_f f true) - phi (cell_f f false))
                * (c (cell_f f true) - c (cell_f f false))))).
  { unfold lax. destruct (t_lax (tc_T k)) as [[lf sp]|].
    - apply integral_ext. intros f _. reflexivity.
    - symmetry. apply dS_zero. intros f _. ring. }
  rewrite H3. clear H3.
  assert (EB : ds M (passed_b k c phi) = - ds M (fun b =>
      match t_bnd (tc_T k) (m_marker M b) with
      | None => s_b (P0 c) b * unb M (tc_uv k) b * s_b (P0 phi) b
      | Some tb =>
          let ue := tuv_ext (tc_E k) tb (s_b (tc_elev k)) (vb (tc_uv k)) b in
          let uv_av := scal2 0.5 (add2 (vb (tc_uv k) b) ue) in
          let s := up_s (tc_T k) (dot2 uv_av (m_nb M b)) in
          dot2 (add2 (scal2 (s_b (P0 c) b * s) (vb (tc_uv k) b)) (scal2 (c_ext tb (s_b (P0 c) b) b * (1 - s)) ue)) (m_nb M b) * s_b (P0 phi) b
      end)).
  { unfold ds. rewrite <- integral_opp. apply integral_ext. intros b Hin. unfold passed_b. cbv zeta.
    unfold consistent_bnd in Hb. rewrite Hm in Hb. specialize (Hb b Hin).
    destruct (t_bnd (tc_T k) (m_marker M b)) as [tb|]; cbn [p0_field s_b]; [|ring].
    assert (dot2 (scal2 0.5 (add2 (vb (tc_uv k) b) (tuv_ext (tc_E k) tb (s_b (tc_elev k)) (vb (tc_uv k)) b))) (m_nb M b)
            = unb M (tc_uv k) b) as ->.
    { transitivity (0.5 * (unb M (tc_uv k) b + dot2 (tuv_ext (tc_E k) tb (s_b (tc_elev k)) (vb (tc_uv k)) b) (m_nb M b))).
      - unfold unb, dot2, scal2, add2; cbn [fst snd]. ring.
      - rewrite (Hb tb eq_refl). apply half_plus. }
    assert (HJ : forall x y, dot2 (add2 (scal2 x (vb (tc_uv k) b)) (scal2 y (tuv_ext (tc_E k) tb (s_b (tc_elev k)) (vb (tc_uv k)) b))) (m_nb M b)
                   = (x + y) * unb M (tc_uv k) b).
    { intros x y. transitivity (x * unb M (tc_uv k) b + y * dot2 (tuv_ext (tc_E k) tb (s_b (tc_elev k)) (vb (tc_uv k)) b) (m_nb M b)).
      - unfold unb, dot2, scal2, add2; cbn [fst snd]. ring.
      - rewrite (Hb tb eq_refl). ring. }
    rewrite HJ. ring. }
  cbv zeta in EB |- *. rewrite EB. clear EB.
  match goal with |- - (- 0 + (?U + ?L) + ?X) = ?D + - ?X => assert (HD : D = - U - L) end.
  { unfold dS. rewrite <- integral_opp, <- integral_minus. apply integral_ext. intros f Hf. unfold passed.
    unfold normal_continuous in Hn. rewrite Hm in Hn. specialize (Hn f Hf). rewrite (un_av_eq (tc_E k) (tc_uv k) f Hn).
    generalize (up_s (tc_T k) (un_f (tc_E k) (tc_uv k) f false)). intro s. cbn [p0_field s_f].
    assert (HJ : dot2 (add2 (scal2 (c (cell_f f false) * s) (vf (tc_uv k) f false)) (scal2 (c (cell_f f true) * (1 - s)) (vf (tc_uv k) f true)))
                   (jump_n M (P0 phi) f)
         = (phi (cell_f f false) - phi (cell_f f true))
           * (c (cell_f f false) * s * un_f (tc_E k) (tc_uv k) f false - c (cell_f f true) * (1 - s) * un_f (tc_E k) (tc_uv k) f true)).
    { unfold un_f. rewrite Hm. unfold jump_n, p0_field, normal, dot2, add2, scal2, vf; cbn [s_f fst snd]. ring. }
    rewrite HJ, Hn. ring. }
  rewrite HD. ring.
Qed.

Lemma cons_rows : forall k c K, (K < n)%nat -> carries M n cell_v cell_f cell_b k -> unit_normals M ->
  tvec W true k c K
  = dS M (fun f => passed k c (on K) f + spreading k c (on K) f) + ds M (passed_b k c (on K)) + supply_cons k (on K).
Proof.
  intros k c K HK Hc Hu. rewrite <- (cons_split k c (on K) Hc Hu).
  unfold tvec, tracer_vector. cbn [p0_space n_c chi]. apply Nat.ltb_lt in HK. rewrite HK, tracer_p0. reflexivity.
Qed.

(** the rows of a set of cells add up to the form tested with the set *)
Lemma cons_sum : forall k c phi, carries M n cell_v cell_f cell_b k -> unit_normals M ->
  rsum n (fun K => phi K * tvec W true k c K)
  = dS M (fun f => passed k c phi f + spreading k c phi f) + ds M (passed_b k c phi) + supply_cons k phi.
Proof.
  intros k c phi Hc Hu.
  set (G := fun phi => dS M (fun f => passed k c phi f + spreading k c phi f) + ds M (passed_b k c phi) + supply_cons k phi).
  assert (GE : forall p q, (forall L, (L < n)%nat -> p L = q L) -> G p = G q).
  { intros p q H. destruct Hnum as (N1 & N2 & N3). unfold G. f_equal; [f_equal|].
    - apply integral_ext. intros f _. unfold passed, spreading. rewrite !(H (cell_f f _)) by apply N2. reflexivity.
    - apply integral_ext. intros b _. unfold passed_b. rewrite !(H (cell_b b)) by apply N3. reflexivity.
    - unfold supply_cons. destruct (t_source (tc_T k)); [|reflexivity]. apply integral_ext. intros x _.
      rewrite (H (cell_v x)) by apply N1. reflexivity. }
  assert (GL : forall p a q, G (fun L => p L + a * q L) = G p + a * G q).
  { intros p a q. unfold G.
    assert (A1 : dS M (fun f => passed k c (fun L => p L + a * q L) f + spreading k c (fun L => p L + a * q L) f)
       = dS M (fun f => passed k c p f + spreading k c p f) + a * dS M (fun f => passed k c q f + spreading k c q f)).
    { apply integral_lin. intros f _. unfold passed, spreading. destruct (t_mu (tc_T k)); ring. }
    assert (A2 : ds M (passed_b k c (fun L => p L + a * q L)) = ds M (passed_b k c p) + a * ds M (passed_b k c q)).
    { apply integral_lin. intros b _. unfold passed_b. cbv zeta. ring. }
    assert (A3 : supply_cons k (fun L => p L + a * q L) = supply_cons k p + a * supply_cons k q).
    { unfold supply_cons. destruct (t_source (tc_T k)); [|ring]. apply integral_lin. intros x _. ring. }
    rewrite A1, A2, A3. ring. }
  assert (G0 : G (fun _ => 0) = 0).
  { assert (Q : G (fun _ => 0) = G (fun _ => 0) + (-1) * G (fun _ => 0)).
    { rewrite <- GL. apply GE. intros; ring. }
    clear - Q. lra. }
  assert (GS : forall m, (m <= n)%nat -> rsum m (fun K => phi K * tvec W true k c K) = G (fun L => if Nat.ltb L m then phi L else 0)).
  { induction m as [|m IH]; intro Hm; cbn [rsum].
    - symmetry. rewrite <- G0 at 1. apply GE. intros L _. reflexivity.
    - rewrite IH by lia. rewrite (cons_rows k c m ltac:(lia) Hc Hu). fold (G (on m)). rewrite <- GL. apply GE. intros L _.
      unfold on. destruct (Nat.eqb_spec L m) as [->|].
      + destruct (Nat.ltb_spec m m); [lia|]. destruct (Nat.ltb_spec m (S m)); [|lia]. ring.
      + destruct (Nat.ltb_spec L m); destruct (Nat.ltb_spec L (S m)); try lia; ring. }
  rewrite (GS n (le_n _)). apply GE. intros L HL. apply Nat.ltb_lt in HL. rewrite HL. reflexivity.
Qed.

(** explicitly: at most what is in the cell leaves it *)
Lemma cons_above : forall k c K, (K < n)%nat -> carries M n cell_v cell_f cell_b k -> unit_normals M -> positive_weights M ->
  above n 0 c -> fed_positive M k ->
  - (output M cell_f cell_b k K * c K) <= tvec W true k c K.
Proof.
  intros k c0 K HK Hc Hu Hw Hlo0 (Hv & Hs).
  set (c := ext_by 0 c0).
  rewrite (rows_local true k c0 c) by (intros; symmetry; apply ext_by_in; assumption).
  replace (c0 K) with (c K) by (apply ext_by_in; exact HK).
  assert (Hlo : forall L, 0 <= c L).
  { intro L. unfold c, ext_by. destruct (Nat.ltb_spec L n); [apply Hlo0; assumption|lra]. }
  clearbody c. clear c0 Hlo0. rewrite (cons_rows k c K HK Hc Hu).
  pose proof Hc as (Hm & _ & _ & Hn & _ & Hl & Hmu). unfold normal_continuous in Hn. rewrite Hm in Hn.
  destruct Hw as (Hw1 & Hw2 & Hw3).
  assert (Q0 : 0 <= supply_cons k (on K)).
  { unfold supply_cons. destruct (t_source (tc_T k)) as [s|]; [|lra]. specialize (Hs s eq_refl).
    apply integral_nonneg; [intros p Hp; left; apply Hw1, Hp|]. intros p _.
    apply Rmult_le_pos; [apply Hs|]. unfold on. destruct (Nat.eqb (cell_v p) K); lra. }
  pose proof (Hlo K) as HK0.
  assert (Q1 : dS M (fun f => - ((outflow_f (tc_E k) (tc_T k) cell_f (tc_uv k) K f + exchange cell_f k K f) * c K))
             <= dS M (fun f => passed k c (on K) f + spreading k c (on K) f)).
  { apply integral_le; [intros f H; apply Rlt_le, Hw2, H|]. intros f Hf. specialize (Hn f Hf).
    pose proof (spreading_bound k c K f 0 Hlo (fun mu E => proj1 (Hmu mu E) f)) as P2. rewrite Rminus_0_r in P2.
    enough (P1 : - (outflow_f (tc_E k) (tc_T k) cell_f (tc_uv k) K f * c K) <= passed k c (on K) f) by lra.
    unfold passed, outflow_f. rewrite Hn. specialize (Hl f).
    set (q := un_f (tc_E k) (tc_uv k) f false). set (cp := c (cell_f f true)). set (cm := c (cell_f f false)).
    pose proof (Hlo (cell_f f true)) as Hp. fold cp in Hp. pose proof (Hlo (cell_f f false)) as Hmm. fold cm in Hmm.
    assert (HP : on K (cell_f f true) = 0 \/ on K (cell_f f true) = 1 /\ cp = c K).
    { unfold on, cp. destruct (Nat.eqb_spec (cell_f f true) K) as [<-|]; [right; split; reflexivity|left; reflexivity]. }
    assert (HM : on K (cell_f f false) = 0 \/ on K (cell_f f false) = 1 /\ cm = c K).
    { unfold on, cm. destruct (Nat.eqb_spec (cell_f f false) K) as [<-|]; [right; split; reflexivity|left; reflexivity]. }
    set (l := lax (tc_T k) f) in *.
    assert (L1 : 0 <= l * cp) by (apply Rmult_le_pos; lra). assert (L2 : 0 <= l * cm) by (apply Rmult_le_pos; lra).
    destruct (Rtotal_order q 0) as [Hq|[Hq|Hq]].
    + rewrite (up_neg (tc_T k) q Hq).
      assert (Rmax 0 q = 0) as -> by (apply Rmax_left; lra). assert (Rmax 0 (- q) = - q) as -> by (apply Rmax_right; lra).
      assert (Q1 : 0 <= (- q) * cp) by (apply Rmult_le_pos; lra).
      destruct HP as [->|[-> HP]]; destruct HM as [->|[-> HM]]; try rewrite HP in *; try rewrite HM in *; lra.
    + rewrite Hq, Ropp_0. assert (Rmax 0 0 = 0) as -> by (apply Rmax_left; lra).
      destruct HP as [->|[-> HP]]; destruct HM as [->|[-> HM]]; try rewrite HP in *; try rewrite HM in *; lra.
    + rewrite (up_pos (tc_T k) q Hq).
      assert (Rmax 0 q = q) as -> by (apply Rmax_right; lra). assert (Rmax 0 (- q) = 0) as -> by (apply Rmax_left; lra).
      assert (Q1 : 0 <= q * cm) by (apply Rmult_le_pos; lra).
      destruct HP as [->|[-> HP]]; destruct HM as [->|[-> HM]]; try rewrite HP in *; try rewrite HM in *; lra. }
  assert (Q2 : ds M (fun b => - (outflow_b (tc_E k) cell_b (tc_uv k) K b * c K)) <= ds M (passed_b k c (on K))).
  { apply integral_le; [intros f H; apply Rlt_le, Hw3, H|]. intros b _. unfold passed_b, outflow_b. rewrite Hm. cbv zeta.
    set (q := unb M (tc_uv k) b).
    assert (HP : on K (cell_b b) = 0 \/ on K (cell_b b) = 1 /\ c (cell_b b) = c K).
    { unfold on. destruct (Nat.eqb_spec (cell_b b) K) as [<-|]; [right; split; reflexivity|left; reflexivity]. }
    assert (X0 : 0 <= Rmax 0 q * c K) by (apply Rmult_le_pos; [apply Rmax_l|exact HK0]).
    assert (X1 : q * c K <= Rmax 0 q * c K) by (apply Rmult_le_compat_r; [exact HK0|apply Rmax_r]).
    destruct HP as [->|[-> HP]]; [lra|]. rewrite HP.
    destruct (t_bnd (tc_T k) (m_marker M b)) as [tb|] eqn:Eb; [|lra].
    assert (Hce : 0 <= c_ext tb (c K) b).
    { unfold c_ext. destruct (tb_value tb) as [v|] eqn:Ev; [apply (Hv b tb v Eb Ev)|exact HK0]. }
    destruct (Rtotal_order q 0) as [Hq|[Hq|Hq]].
    * rewrite (up_neg (tc_T k) q Hq). assert (0 <= (- q) * c_ext tb (c K) b) by (apply Rmult_le_pos; lra). lra.
    * rewrite Hq in *. lra.
    * rewrite (up_pos (tc_T k) q Hq). lra. }
  unfold dS in Q1. unfold ds in Q2. rewrite integral_opp, integral_scal_r in Q1.
  rewrite integral_opp, integral_scal_r in Q2. unfold output, dS, ds in *. lra.
Qed.

(** the cells with negative amounts gain together *)
Lemma cons_negative_gain : forall k c, carries M n cell_v cell_f cell_b k -> unit_normals M -> positive_weights M -> fed_positive M k -> inflow_given M k ->
  0 <= rsum n (fun K => (if Rlt_dec (c K) 0 then 1 else 0) * tvec W true k c K).
Proof.
  intros k c Hc Hu Hw (Hv & Hs) Hi. set (phi := fun K => if Rlt_dec (c K) 0 then 1 else 0).
  change (0 <= rsum n (fun K => phi K * tvec W true k c K)).
  rewrite (cons_sum k c phi Hc Hu). pose proof Hc as (Hm & _ & _ & Hn & _ & Hl & Hmu). destruct Hw as (Hw1 & Hw2 & Hw3).
  assert (Hphi : forall L, phi L = 1 /\ c L < 0 \/ phi L = 0 /\ 0 <= c L).
  { intro L. unfold phi. destruct (Rlt_dec (c L) 0); [left|right]; split; try reflexivity; lra. }
  assert (Q0 : 0 <= supply_cons k phi).
  { unfold supply_cons. destruct (t_source (tc_T k)) as [s|]; [|lra]. specialize (Hs s eq_refl).
    apply integral_nonneg; [intros p Hp; left; apply Hw1, Hp|]. intros p _.
    apply Rmult_le_pos; [apply Hs|]. destruct (Hphi (cell_v p)) as [[-> _]|[-> _]]; lra. }
  assert (Q1 : 0 <= dS M (fun f => passed k c phi f + spreading k c phi f)).
  { apply integral_nonneg; [intros f H; apply Rlt_le, Hw2, H|]. intros f Hf.
    assert (X : forall a, 0 <= a -> 0 <= - (a * ((phi (cell_f f true) - phi (cell_f f false)) * (c (cell_f f true) - c (cell_f f false))))).
    { intros a Ha. destruct (Hphi (cell_f f true)) as [[-> H1]|[-> H1]]; destruct (Hphi (cell_f f false)) as [[-> H2]|[-> H2]]; try lra.
      - assert (0 <= a * (c (cell_f f false) - c (cell_f f true))) by (apply Rmult_le_pos; lra). lra.
      - assert (0 <= a * (c (cell_f f true) - c (cell_f f false))) by (apply Rmult_le_pos; lra). lra. }
    assert (P2 : 0 <= spreading k c phi f).
    { unfold spreading. destruct (t_mu (tc_T k)) as [mu|]; [|lra]. apply X. apply (Hmu mu eq_refl). }
    enough (P1 : 0 <= passed k c phi f) by lra.
    unfold passed. pose proof (X _ (Hl f)) as X1. set (q := un_f (tc_E k) (tc_uv k) f false).
    match goal with |- 0 <= ?A - _ => enough (0 <= A) by lra end. clear X X1 P2.
    destruct (Rtotal_order q 0) as [Hq|[Hq|Hq]].
    - rewrite (up_neg (tc_T k) q Hq).
      destruct (Hphi (cell_f f true)) as [[-> H1]|[-> H1]]; destruct (Hphi (cell_f f false)) as [[-> H2]|[-> H2]]; try lra.
      + assert (0 <= (- q) * - c (cell_f f true)) by (apply Rmult_le_pos; lra). lra.
      + assert (0 <= (- q) * c (cell_f f true)) by (apply Rmult_le_pos; lra). lra.
    - rewrite Hq. lra.
    - rewrite (up_pos (tc_T k) q Hq).
      destruct (Hphi (cell_f f true)) as [[-> H1]|[-> H1]]; destruct (Hphi (cell_f f false)) as [[-> H2]|[-> H2]]; try lra.
      + assert (0 <= q * c (cell_f f false)) by (apply Rmult_le_pos; lra). lra.
      + assert (0 <= q * - c (cell_f f false)) by (apply Rmult_le_pos; lra). lra. }
  assert (Q2 : 0 <= ds M (passed_b k c phi)).
  { apply integral_nonneg; [intros f H; apply Rlt_le, Hw3, H|]. intros b Hin. unfold passed_b. cbv zeta.
    set (q := unb M (tc_uv k) b). destruct (Hphi (cell_b b)) as [[-> H1]|[-> H1]]; [|lra].
    assert (P1 : 0 <= q -> 0 <= q * - c (cell_b b)) by (intro; apply Rmult_le_pos; lra).
    destruct (t_bnd (tc_T k) (m_marker M b)) as [tb|] eqn:Eb.
    - destruct (Rlt_dec q 0) as [Hq|Hq].
      + destruct (Hi b Hin Hq) as (tb' & v & E1 & E2). assert (tb' = tb) as -> by congruence.
        rewrite (up_neg (tc_T k) q Hq). unfold c_ext. rewrite E2. pose proof (Hv b tb v Eb E2) as Hvb.
        assert (0 <= (- q) * v b) by (apply Rmult_le_pos; lra). lra.
      + specialize (P1 ltac:(lra)). destruct (Rle_lt_or_eq_dec 0 q ltac:(lra)) as [Hq1|Hq1].
        * rewrite (up_pos (tc_T k) q Hq1). lra.
        * rewrite <- Hq1. lra.
    - destruct (Rlt_dec q 0) as [Hq|Hq]; [destruct (Hi b Hin Hq) as (tb & v & E1 & _); congruence|].
      specialize (P1 ltac:(lra)). lra. }
  lra.
Qed.
End Rows.
