(** C88: piecewise constant tracers stay in the range of their initial values and of
    the values at the inflow, over whole runs. *)
From Coq Require Import Reals List String Bool Arith Lia Lra FunctionalExtensionality.
From Verif Require Import Forms_Model Forms_Spec Forms_Proofs P_SWE P_Tracer2d
  RK_Model RK_Spec RK_Proofs RK_Proofs3 RK_Proofs4 TimeInt_Model TimeInt_Spec TimeInt_Proofs P_RungeKutta P_TimeInt
  Galerkin_Model Galerkin_Proofs P_Galerkin LinSys_Proofs Variance_Spec P_Variance Bounds_Spec Bounds_Proofs.
Import ListNotations.
Open Scope R_scope.

Section Bounds.
Context {V F B Val Bd : Type}.
Local Notation tcase := (@tcase V F B).
Variable M : mesh V F B.
Variable n : nat.
Variable cell_v : V -> nat.
Variable cell_f : F -> bool -> nat.
Variable cell_b : B -> nat.
Notation W := (p0_space n cell_v cell_f cell_b).
Notation mass := (tracer_mass W M).
Notation carries := (carries M n cell_v cell_f cell_b).
Notation area := (cell_area M cell_v).
Notation intake := (intake M cell_f cell_b).
Notation output := (output M cell_f cell_b).

(** a mesh of [n] cells *)
Definition cells : Prop :=
  numbered n cell_v cell_f cell_b /\ positive_weights M /\ unit_normals M /\ forall K, (K < n)%nat -> 0 < area K.

Hypothesis Hcells : cells.

Lemma no_data_carries : forall (k : tcase), carries k -> carries (no_data k).
Proof.
  intros k (Hm & Hd & Hg & Hn & Hb & Hl & Hmu). split; [exact Hm|]. split; [exact Hd|]. split; [exact Hg|].
  split; [exact Hn|]. split; [|split; [exact Hl|]].
  - intros b Hin tb Eb. cbn [no_data tc_T no_data_env t_bnd tc_E tc_uv tc_elev] in Hin, Eb |- *.
    destruct (t_bnd (tc_T k) (m_marker (e_mesh (tc_E k)) b)) as [tb0|] eqn:E0; [|discriminate].
    cbn [option_map] in Eb. injection Eb as <-. exact (Hb b Hin tb0 E0).
  - intros mu Emu. cbn [no_data tc_T no_data_env t_mu] in Emu. destruct (Hmu mu Emu) as [H1 H2]. split; [exact H1|].
    intros m tb Eb. cbn [no_data tc_T no_data_env t_bnd] in Eb. destruct (t_bnd (tc_T k) m) as [tb0|] eqn:E0; [|discriminate].
    cbn [option_map] in Eb. injection Eb as <-. cbn [no_data_bnd tb_diff_flux tb_value no_data tc_gext].
    destruct (tb_diff_flux tb0); cbn [option_map]; [reflexivity|]. intros _ b. reflexivity.
Qed.
Lemma no_data_value : forall (k : tcase) m tb v, t_bnd (tc_T (no_data k)) m = Some tb -> tb_value tb = Some v -> v = fun _ => 0.
Proof.
  intros k m tb v Eb Ev. cbn [no_data tc_T no_data_env t_bnd] in Eb. destruct (t_bnd (tc_T k) m) as [tb0|]; [|discriminate].
  cbn [option_map] in Eb. injection Eb as <-. cbn [no_data_bnd tb_value] in Ev. destruct (tb_value tb0); [|discriminate].
  cbn [option_map] in Ev. injection Ev as <-. reflexivity.
Qed.
Lemma no_data_above : forall (k : tcase) m, m <= 0 -> fed_above M m (no_data k).
Proof.
  intros k m Hm. split; [|intros s E; discriminate E]. intros b tb v Eb Ev. rewrite (no_data_value k _ tb v Eb Ev). exact Hm.
Qed.
Lemma no_data_positive : forall (k : tcase), fed_positive M (no_data k).
Proof.
  intros k. split; [|intros s E; discriminate E]. intros b tb v Eb Ev. rewrite (no_data_value k _ tb v Eb Ev). lra.
Qed.
Lemma no_data_given : forall (k : tcase), inflow_given M k -> inflow_given M (no_data k).
Proof.
  intros k H b Hin Hq. destruct (H b Hin Hq) as (tb & v & E1 & E2). exists (no_data_bnd tb), (fun _ => 0).
  cbn [no_data tc_T no_data_env t_bnd]. rewrite E1. cbn [option_map no_data_bnd tb_value]. rewrite E2. split; reflexivity.
Qed.

(* ------------------------------------------------------------------ *)
(** * One step of the theta scheme *)
Definition stepped (cf : bool) (kn ko : tcase) (dt theta : R) (c c' : nat -> R) : Prop :=
  forall K, (K < n)%nat -> area K * c' K = area K * c K + dt * (theta * tvec W cf kn c' K + (1 - theta) * tvec W cf ko c K).

Lemma fed_lower : forall (k : tcase) m lo, m <= lo -> fed_above M lo k -> fed_above M m k.
Proof.
  intros k m lo Hle (H1 & H2). split; [|exact H2]. intros b tb v E1 E2. pose proof (H1 b tb v E1 E2). lra.
Qed.

Lemma step_above : forall kn ko dt theta lo c c', carries kn -> carries ko -> fed_above M lo kn -> fed_above M lo ko ->
  0 <= dt -> 0 <= theta <= 1 -> (forall K, (K < n)%nat -> dt * (1 - theta) * intake ko K <= area K) ->
  stepped false kn ko dt theta c c' -> above n lo c -> above n lo c'.
Proof.
  intros kn ko dt theta lo c c' Hn Ho Fn Fo Hdt Hth Hcfl Hst Hc. destruct Hcells as (Hnum & Hw & Hu & Ha).
  set (h := fun K => c K + dt * (1 - theta) / area K * tvec W false ko c K).
  assert (Hh : above n lo h).
  { apply (explicit_above n area Ha (tvec W false ko c) (intake ko) (dt * (1 - theta)) lo c h).
    - apply Rmult_le_pos; lra.
    - exact Hc.
    - intros K HK. apply rows_above; assumption.
    - exact Hcfl.
    - intros K HK. unfold h. specialize (Ha K HK). field. lra. }
  apply (implicit_above n area Ha (tvec W false kn c') (dt * theta) lo h c').
  - apply Rmult_le_pos; lra.
  - exact Hh.
  - intros m K HK Hm Hab E. pose proof (rows_above M n cell_v cell_f cell_b Hnum kn c' K m HK Hn Hu Hw Hab (fed_lower _ _ _ Hm Fn)) as Q.
    rewrite E in Q. replace (m - m) with 0 in Q by ring. lra.
  - intros K HK. rewrite (Hst K HK). unfold h. specialize (Ha K HK). field. lra.
Qed.

Lemma stepped_flip : forall kn ko dt theta c c', carries kn -> carries ko ->
  stepped false kn ko dt theta c c' -> stepped false (flip kn) (flip ko) dt theta (fun L => - c L) (fun L => - c' L).
Proof.
  intros kn ko dt theta c c' Hn Ho H K HK. destruct Hcells as (Hnum & Hw & Hu & Ha).
  rewrite !(rows_flip M n cell_v cell_f cell_b Hnum) by assumption. specialize (H K HK). lra.
Qed.

Lemma step_below : forall kn ko dt theta hi c c', carries kn -> carries ko -> fed_below M hi kn -> fed_below M hi ko ->
  0 <= dt -> 0 <= theta <= 1 -> (forall K, (K < n)%nat -> dt * (1 - theta) * intake ko K <= area K) ->
  stepped false kn ko dt theta c c' -> below n hi c -> below n hi c'.
Proof.
  intros kn ko dt theta hi c c' Hn Ho Fn Fo Hdt Hth Hcfl Hst Hc.
  assert (Q : above n (- hi) (fun L => - c' L)).
  { apply (step_above (flip kn) (flip ko) dt theta (- hi) (fun L => - c L)); try assumption.
    - apply (flip_carries M), Hn.
    - apply (flip_carries M), Ho.
    - exact (fed_flip M hi _ Fn).
    - exact (fed_flip M hi _ Fo).
    - apply stepped_flip; assumption.
    - intros K HK. specialize (Hc K HK). lra. }
  intros K HK. specialize (Q K HK). cbv beta in Q. lra.
Qed.

Lemma step_positive : forall kn ko dt theta c c', carries kn -> carries ko -> fed_positive M kn -> fed_positive M ko ->
  inflow_given M kn -> 0 <= dt -> 0 <= theta <= 1 -> (forall K, (K < n)%nat -> dt * (1 - theta) * output ko K <= area K) ->
  stepped true kn ko dt theta c c' -> above n 0 c -> above n 0 c'.
Proof.
  intros kn ko dt theta c c' Hn Ho Fn Fo Gn Hdt Hth Hcfl Hst Hc. destruct Hcells as (Hnum & Hw & Hu & Ha).
  set (h := fun K => c K + dt * (1 - theta) / area K * tvec W true ko c K).
  assert (Hh : above n 0 h).
  { apply (explicit_above n area Ha (tvec W true ko c) (output ko) (dt * (1 - theta)) 0 c h).
    - apply Rmult_le_pos; lra.
    - exact Hc.
    - intros K HK. rewrite Rminus_0_r. apply cons_above; assumption.
    - exact Hcfl.
    - intros K HK. unfold h. specialize (Ha K HK). field. lra. }
  apply (implicit_positive n area Ha (tvec W true kn c') (dt * theta) h c').
  - apply Rmult_le_pos; lra.
  - exact Hh.
  - apply (cons_negative_gain M); assumption.
  - intros K HK. rewrite (Hst K HK). unfold h. specialize (Ha K HK). field. lra.
Qed.

(** the linear system of an implicit step has one solution *)
Lemma p0_system_zero : forall cf tau k u, carries k -> (cf = true -> inflow_given M k) -> 0 <= tau ->
  (forall K, (K < n)%nat -> mass u K + (- tau) * tvec W cf (no_data k) u K = 0) -> forall K, (K < n)%nat -> u K = 0.
Proof.
  intros cf tau k u Hk Hg Ht H. pose proof Hcells as (Hnum & Hw & Hu & Ha).
  assert (Z : forall a, tvec W cf (no_data k) (fun L => a * u L) = fun K => a * tvec W cf (no_data k) u K).
  { intro a. apply functional_extensionality. intro K.
    pose proof (rows_linear0 W cf k (fun _ => 0) a u K) as Q. unfold plus in Q.
    replace (fun i => 0 + a * u i) with (fun i => a * u i) in Q by (apply functional_extensionality; intro; ring).
    rewrite Q. pose proof (rows_zero W cf k K). lra. }
  assert (S : forall a, stepped cf (no_data k) (no_data k) tau 1 (fun _ => 0) (fun L => a * u L)).
  { intros a K HK. rewrite Z. specialize (H K HK). rewrite (mass_p0 M n cell_v cell_f cell_b Hnum) in H by exact HK.
    assert (E : area K * u K = tau * tvec W cf (no_data k) u K) by lra.
    replace (area K * (a * u K)) with (a * (area K * u K)) by ring. rewrite E. ring. }
  assert (Z0 : forall K, (K < n)%nat -> tau * (1 - 1) * intake (no_data k) K <= area K).
  { intros K HK. specialize (Ha K HK). replace (tau * (1 - 1) * intake (no_data k) K) with 0 by ring. lra. }
  assert (Z1 : forall K, (K < n)%nat -> tau * (1 - 1) * output (no_data k) K <= area K).
  { intros K HK. specialize (Ha K HK). replace (tau * (1 - 1) * output (no_data k) K) with 0 by ring. lra. }
  assert (P : forall a, above n 0 (fun L => a * u L)).
  { intro a. destruct cf.
    - apply (step_positive (no_data k) (no_data k) tau 1 (fun _ => 0)); try apply no_data_carries, Hk; try apply no_data_positive; try assumption; try lra.
      + apply no_data_given, Hg. reflexivity.
      + apply S.
      + intros K HK. lra.
    - apply (step_above (no_data k) (no_data k) tau 1 0 (fun _ => 0)); try apply no_data_carries, Hk; try (apply no_data_above; lra); try assumption; try lra.
      + apply S.
      + intros K HK. lra. }
  intros K HK. pose proof (P 1 K HK) as P1. pose proof (P (-1) K HK) as P2. cbv beta in P1, P2. lra.
Qed.

Lemma p0_system_onto : forall cf tau k b, carries k -> (cf = true -> inflow_given M k) -> 0 <= tau ->
  exists u, forall i, mass u i + (- tau) * tvec W cf (no_data k) u i = b i.
Proof.
  intros cf tau k b Hk Hg Ht.
  apply (space_onto W (fun u i => mass u i + (- tau) * tvec W cf (no_data k) u i)).
  - intros u a v i. rewrite mass_lin, rows_linear0. ring.
  - intros u v H i Hi. rewrite (mass_local W M u v H i Hi), (P_Variance.rows_local W cf _ u v H i). reflexivity.
  - intros u i Hi. rewrite mass_out, rows_out by exact Hi. ring.
  - intros u H. apply (p0_system_zero cf tau k u Hk Hg Ht). exact H.
Qed.

Lemma p0_mass_injective : forall u v, (forall i, mass u i = mass v i) -> u = v.
Proof.
  intros u v H. apply functional_extensionality. intro i. destruct (le_lt_dec n i) as [Hi|Hi].
  - specialize (H i). rewrite !mass_out in H by exact Hi. exact H.
  - destruct Hcells as (Hnum & Hw & Hu & Ha). specialize (H i). rewrite !(mass_p0 M n cell_v cell_f cell_b Hnum) in H by exact Hi.
    specialize (Ha i Hi). apply (Rmult_eq_reg_l (area i)); [exact H|lra].
Qed.

(* ------------------------------------------------------------------ *)
(** * Runs of the theta scheme *)
Section Theta.
Variable case : (string -> option Val) -> (string -> option Val) -> Bd -> tcase.
Variable keys : list string.
Variable kind : string -> ckind.
Variable solve : ((nat -> R) -> nat -> R) -> (nat -> R) -> nat -> R.
Variable dt : R.
Variable uf : option (@forcing Val Bd).
Variable theta : R.
Variable semi : bool.
Notation step cf := (cn_advance keys kind (TRes W case cf) mass solve dt uf theta semi).
Notation seen co := (case (view kind co) (view kind co) (oth co)).
Notation seen_old co := (case (view_old kind co) (view_old kind co) (oth co)).

(** Every step can be taken, whatever its length, and in one way only. *)
Theorem C88_step_exists : forall conservative,
  (forall f fo b, carries (case f fo b)) -> (conservative = true -> forall f fo b, inflow_given M (case f fo b)) ->
  0 <= dt -> 0 <= theta -> forall co c, tsolvable W M case conservative kind dt theta semi co c.
Proof.
  intros cf Hk Hg Hdt Hth co c. unfold tsolvable, theta_step, TRes.
  destruct (p0_system_onto cf (dt * theta) (seen co)
    (fun i => mass c i + dt * theta * tvec W cf (seen co) (fun _ => 0) i + dt * (1 - theta) * tvec W cf (seen_old co) c i)) as (u & Hu);
    [apply Hk|intro E; apply Hg, E|apply Rmult_le_pos; assumption|].
  exists u. intro i. specialize (Hu i).
  assert (Q : tvec W cf (seen co) u i = tvec W cf (seen co) (fun _ => 0) i + tvec W cf (no_data (seen co)) u i).
  { pose proof (rows_affine W cf (seen co) (fun _ => 0) 1 u i) as A.
    replace (plus (fun _ => 0) 1 u) with u in A by (apply functional_extensionality; intro; unfold plus; ring). lra. }
  rewrite Q. lra.
Qed.

Theorem C88_step_unique : forall conservative co c c1 c2,
  carries (seen co) -> (conservative = true -> inflow_given M (seen co)) -> 0 <= dt -> 0 <= theta ->
  let next := theta_step mass
    (fun v => TRes W case conservative v (if semi then c else v) (view kind co) (view kind co) (oth co))
    (fun v => TRes W case conservative v v (view_old kind co) (view_old kind co) (oth co)) dt theta c in
  next c1 -> next c2 -> c1 = c2.
Proof.
  intros cf co c c1 c2 Hk Hg Hdt Hth next H1 H2. unfold next, theta_step, TRes in H1, H2.
  apply functional_extensionality. intro i. destruct (le_lt_dec n i) as [Hi|Hi].
  - specialize (H1 i). specialize (H2 i). rewrite !mass_out, !rows_out in H1 by exact Hi. rewrite !mass_out, !rows_out in H2 by exact Hi. lra.
  - assert (Z : plus c1 (-1) c2 i = 0).
    { apply (p0_system_zero cf (dt * theta) (seen co)); [exact Hk|exact Hg|apply Rmult_le_pos; assumption| |exact Hi].
      intros K HK. rewrite mass_lin. rewrite <- (rows_differ W cf (seen co) c1 c2 K). specialize (H1 K). specialize (H2 K). lra. }
    unfold plus in Z. lra.
Qed.

Lemma step_stepped : forall cf t (s : @tst nat Val Bd), exact_solver solve ->
  let co := force_co uf (t + dt) (tco s) in
  tsolvable W M case cf kind dt theta semi co (tsol s) ->
  stepped cf (seen co) (seen_old co) dt theta (tsol s) (tsol (step cf t s)).
Proof.
  intros cf t s Hs co Hex.
  destruct (cn_advance_spec keys kind (TRes W case cf) mass solve dt uf theta semi t s Hs Hex) as [Q _]. fold co in Q.
  intros K HK. set (new := tsol (step cf t s)) in *. clearbody new. specialize (Q K). unfold TRes in Q. destruct Hcells as (Hnum & _).
  rewrite !(mass_p0 M n cell_v cell_f cell_b Hnum) in Q by exact HK. lra.
Qed.

(** The range is never left, if what comes into a cell during the explicit part
    of a step is not more than the cell holds. *)
Theorem C88_never_leaves_range : forall lo hi ts (s : @tst nat Val Bd), exact_solver solve ->
  0 <= dt -> 0 <= theta <= 1 ->
  (forall f fo b, let k := case f fo b in
     carries k /\ fed_above M lo k /\ fed_below M hi k /\
     forall K, (K < n)%nat -> dt * (1 - theta) * intake k K <= area K) ->
  within n lo hi (tsol s) ->
  within n lo hi (tsol (fold_left (fun s t => step false t s) ts s)).
Proof.
  intros lo hi ts s Hs Hdt Hth Hk. revert s. induction ts as [|t ts IH]; intros s Hin; cbn [fold_left]; [exact Hin|].
  apply IH. set (co := force_co uf (t + dt) (tco s)).
  assert (St : stepped false (seen co) (seen_old co) dt theta (tsol s) (tsol (step false t s))).
  { apply step_stepped; [exact Hs|]. apply C88_step_exists; [intros; apply Hk|discriminate|exact Hdt|lra]. }
  destruct (Hk (view kind co) (view kind co) (oth co)) as (A1 & A2 & A3 & _).
  destruct (Hk (view_old kind co) (view_old kind co) (oth co)) as (B1 & B2 & B3 & B4).
  intros K HK. split.
  - refine (step_above _ _ _ _ lo _ _ A1 B1 A2 B2 Hdt Hth B4 St _ K HK). intros L HL. apply (Hin L HL).
  - refine (step_below _ _ _ _ hi _ _ A1 B1 A3 B3 Hdt Hth B4 St _ K HK). intros L HL. apply (Hin L HL).
Qed.

(** With a source that only adds, the lower bound alone. *)
Theorem C88_never_below : forall lo ts (s : @tst nat Val Bd), exact_solver solve ->
  0 <= dt -> 0 <= theta <= 1 ->
  (forall f fo b, let k := case f fo b in
     carries k /\ fed_above M lo k /\ forall K, (K < n)%nat -> dt * (1 - theta) * intake k K <= area K) ->
  above n lo (tsol s) ->
  above n lo (tsol (fold_left (fun s t => step false t s) ts s)).
Proof.
  intros lo ts s Hs Hdt Hth Hk. revert s. induction ts as [|t ts IH]; intros s Hin; cbn [fold_left]; [exact Hin|].
  apply IH. set (co := force_co uf (t + dt) (tco s)).
  assert (St : stepped false (seen co) (seen_old co) dt theta (tsol s) (tsol (step false t s))).
  { apply step_stepped; [exact Hs|]. apply C88_step_exists; [intros; apply Hk|discriminate|exact Hdt|lra]. }
  destruct (Hk (view kind co) (view kind co) (oth co)) as (A1 & A2 & _).
  destruct (Hk (view_old kind co) (view_old kind co) (oth co)) as (B1 & B2 & B4).
  exact (step_above _ _ _ _ lo _ _ A1 B1 A2 B2 Hdt Hth B4 St Hin).
Qed.

(** Fully implicit: no condition on the time step. *)
Theorem C88_fully_implicit_range : forall lo hi ts (s : @tst nat Val Bd), exact_solver solve ->
  0 <= dt -> theta = 1 ->
  (forall f fo b, carries (case f fo b) /\ fed_above M lo (case f fo b) /\ fed_below M hi (case f fo b)) ->
  within n lo hi (tsol s) ->
  within n lo hi (tsol (fold_left (fun s t => step false t s) ts s)).
Proof.
  intros lo hi ts s Hs Hdt Hth Hk Hin. apply C88_never_leaves_range; try assumption; [lra|].
  intros f fo b. destruct (Hk f fo b) as (A1 & A2 & A3). split; [exact A1|]. split; [exact A2|]. split; [exact A3|].
  intros K HK. destruct Hcells as (_ & _ & _ & Ha). specialize (Ha K HK). rewrite Hth.
  replace (dt * (1 - 1) * intake (case f fo b) K) with 0 by ring. lra.
Qed.

(** The conservative form: amounts are never negative. *)
Theorem C88_conservative_never_negative : forall ts (s : @tst nat Val Bd), exact_solver solve ->
  0 <= dt -> 0 <= theta <= 1 ->
  (forall f fo b, let k := case f fo b in
     carries k /\ fed_positive M k /\ inflow_given M k /\
     forall K, (K < n)%nat -> dt * (1 - theta) * output k K <= area K) ->
  above n 0 (tsol s) ->
  above n 0 (tsol (fold_left (fun s t => step true t s) ts s)).
Proof.
  intros ts s Hs Hdt Hth Hk. revert s. induction ts as [|t ts IH]; intros s Hin; cbn [fold_left]; [exact Hin|].
  apply IH. set (co := force_co uf (t + dt) (tco s)).
  assert (St : stepped true (seen co) (seen_old co) dt theta (tsol s) (tsol (step true t s))).
  { apply step_stepped; [exact Hs|]. apply C88_step_exists; [intros; apply Hk|intros; apply Hk|exact Hdt|lra]. }
  destruct (Hk (view kind co) (view kind co) (oth co)) as (A1 & A2 & A3 & _).
  destruct (Hk (view_old kind co) (view_old kind co) (oth co)) as (B1 & B2 & B3 & B4).
  exact (step_positive _ _ _ _ _ _ A1 B1 A2 B2 A3 Hdt Hth B4 St Hin).
Qed.
End Theta.

(* ------------------------------------------------------------------ *)
(** * Explicit schemes *)
Lemma within_convex : forall lo hi, convex (within n lo hi).
Proof.
  intros lo hi u v a Ha Hu Hv K HK. specialize (Hu K HK). specialize (Hv K HK).
  assert (0 <= (1 - a) * (u K - lo)) by (apply Rmult_le_pos; lra). assert (0 <= a * (v K - lo)) by (apply Rmult_le_pos; lra).
  assert (0 <= (1 - a) * (hi - u K)) by (apply Rmult_le_pos; lra). assert (0 <= a * (hi - v K)) by (apply Rmult_le_pos; lra). lra.
Qed.
Lemma above_convex : forall lo, convex (above n lo).
Proof.
  intros lo u v a Ha Hu Hv K HK. specialize (Hu K HK). specialize (Hv K HK).
  assert (0 <= (1 - a) * (u K - lo)) by (apply Rmult_le_pos; lra). assert (0 <= a * (v K - lo)) by (apply Rmult_le_pos; lra). lra.
Qed.

Lemma euler_stepped : forall cf k (F : (nat -> R) -> nat -> R) dt c,
  (forall c i, mass (F c) i = tvec W cf k c i) ->
  stepped cf k k dt 0 c (fun K => c K + dt * F c K).
Proof.
  intros cf k Fx dt c HF K HK. destruct Hcells as (Hnum & _).
  pose proof (HF c K) as Q. rewrite (mass_p0 M n cell_v cell_f cell_b Hnum) in Q by exact HK. rewrite <- Q. ring.
Qed.

(** what one explicit Euler step keeps *)
Definition euler_range {En : Type} (caseR : En -> tcase) lo hi dt0 : Prop :=
  forall e, carries (caseR e) /\ fed_above M lo (caseR e) /\ fed_below M hi (caseR e) /\
    forall K, (K < n)%nat -> dt0 * intake (caseR e) K <= area K.

Lemma euler_within {En : Type} : forall (caseR : En -> tcase) (Fx : En -> (nat -> R) -> nat -> R) lo hi dt0,
  euler_range caseR lo hi dt0 -> 0 <= dt0 -> (forall e c i, mass (Fx e c) i = tvec W false (caseR e) c i) ->
  forall e c, within n lo hi c -> within n lo hi (fun K => c K + dt0 * Fx e c K).
Proof.
  intros caseR Fx lo hi dt0 Hk Hdt HF e c Hc K HK. destruct (Hk e) as (A1 & A2 & A3 & A4).
  pose proof (euler_stepped false (caseR e) (Fx e) dt0 c (HF e)) as St.
  assert (A5 : forall K, (K < n)%nat -> dt0 * (1 - 0) * intake (caseR e) K <= area K).
  { intros L HL. rewrite Rminus_0_r, Rmult_1_r. apply A4, HL. }
  split.
  - refine (step_above _ _ _ _ lo _ _ A1 A1 A2 A2 Hdt _ A5 St _ K HK); [lra|]. intros L HL. apply (Hc L HL).
  - refine (step_below _ _ _ _ hi _ _ A1 A1 A3 A3 Hdt _ A5 St _ K HK); [lra|]. intros L HL. apply (Hc L HL).
Qed.

Theorem C88_ssprk33_range : forall (En : Type) alpha beta (caseR : En -> tcase) (Fx : En -> (nat -> R) -> nat -> R) lo hi dt uf ts (s : @st nat En),
  butcher_to_shuosher SSPRK33Tab = Some (alpha, beta) -> 0 <= dt ->
  (forall e c i, mass (Fx e c) i = tvec W false (caseR e) c i) ->
  (forall e, carries (caseR e) /\ fed_above M lo (caseR e) /\ fed_below M hi (caseR e) /\
     forall K, (K < n)%nat -> dt * intake (caseR e) K <= area K) ->
  within n lo hi (sol s) ->
  within n lo hi (sol (fold_left (fun s t => so_advance (ns SSPRK33Tab) alpha beta (tc SSPRK33Tab) Fx true dt uf t s) ts s)).
Proof.
  intros En alpha beta caseR Fx lo hi dt uf ts s Hab Hdt HF Hk. revert s.
  induction ts as [|t ts IH]; intros s Hin; cbn [fold_left]; [exact Hin|]. apply IH.
  apply C28_ssprk33; try assumption; [apply within_convex|]. apply (euler_within caseR Fx lo hi dt Hk Hdt HF).
Qed.

(** the other explicit schemes, with steps up to the advertised multiple of the
    longest explicit Euler step *)
Theorem C88_explicit_range : forall (En : Type) T cfl (caseR : En -> tcase) (Fx : En -> (nat -> R) -> nat -> R) lo hi dt dt0 uf ts (s : @st nat En),
  In (T, cfl) [(ForwardEulerTab, 1); (ERKLSPUM2Tab, 12/10); (ERKLPUM2Tab, 2)] ->
  0 < dt -> dt <= cfl * dt0 ->
  (forall e c i, mass (Fx e c) i = tvec W false (caseR e) c i) ->
  (forall e, carries (caseR e) /\ fed_above M lo (caseR e) /\ fed_below M hi (caseR e) /\
     forall K, (K < n)%nat -> dt0 * intake (caseR e) K <= area K) ->
  (ini s = true -> sol_old s = sol s) ->
  within n lo hi (sol s) ->
  within n lo hi (sol (fold_left (fun s t => erk_advance T Fx true dt uf t s) ts s)).
Proof.
  intros En T cfl caseR Fx lo hi dt dt0 uf ts s HT Hdt Hd HF Hk.
  assert (Hd0 : 0 <= dt0).
  { cbn [In] in HT. destruct HT as [E|[E|[E|[]]]]; apply (f_equal snd) in E; cbn [snd] in E; subst cfl; lra. }
  revert s. induction ts as [|t ts IH]; intros s Hi Hin; cbn [fold_left]; [exact Hin|].
  destruct (erk_advance_spec T Fx dt uf t s ltac:(lra)) as (_ & _ & Ho & _).
  apply IH; [intros _; exact Ho|].
  apply (C28_butcher_form_schemes T cfl Fx dt dt0 uf t (within n lo hi) s HT); try assumption.
  - apply within_convex.
  - apply (euler_within caseR Fx lo hi dt0 Hk Hd0 HF).
  - destruct (ini s); [rewrite Hi by reflexivity|]; exact Hin.
Qed.

Theorem C88_conservative_ssprk33 : forall (En : Type) alpha beta (caseR : En -> tcase) (Fx : En -> (nat -> R) -> nat -> R) dt uf ts (s : @st nat En),
  butcher_to_shuosher SSPRK33Tab = Some (alpha, beta) -> 0 <= dt ->
  (forall e c i, mass (Fx e c) i = tvec W true (caseR e) c i) ->
  (forall e, carries (caseR e) /\ fed_positive M (caseR e) /\
     forall K, (K < n)%nat -> dt * output (caseR e) K <= area K) ->
  above n 0 (sol s) ->
  above n 0 (sol (fold_left (fun s t => so_advance (ns SSPRK33Tab) alpha beta (tc SSPRK33Tab) Fx true dt uf t s) ts s)).
Proof.
  intros En alpha beta caseR Fx dt uf ts s Hab Hdt HF Hk. revert s.
  induction ts as [|t ts IH]; intros s Hin; cbn [fold_left]; [exact Hin|]. apply IH.
  apply C28_ssprk33; try assumption; [apply above_convex|]. intros e c Hc.
  destruct (Hk e) as (A1 & A2 & A4). destruct Hcells as (Hnum & Hw & Hu & Ha).
  apply (explicit_above n area Ha (tvec W true (caseR e) c) (output (caseR e)) dt 0 c); try assumption.
  - intros K HK. rewrite Rminus_0_r. apply cons_above; assumption.
  - intros K HK. pose proof (HF e c K) as Q. rewrite (mass_p0 M n cell_v cell_f cell_b Hnum) in Q by exact HK. rewrite <- Q. ring.
Qed.

(* ------------------------------------------------------------------ *)
(** * BackwardEulerUForm, the "BackwardEuler" of the options *)
Lemma backward_euler_stepped : forall cf (En : Type) (caseR : En -> tcase) solve semi dt uf t (s : @st nat En),
  exact_solver solve -> 0 < dt -> (forall e, carries (caseR e)) -> (cf = true -> forall e, inflow_given M (caseR e)) ->
  exists e, stepped cf (caseR e) (caseR e) dt 1 (sol s)
    (sol (uform_advance BackwardEulerTab (fun e u _ => tvec W cf (caseR e) u) solve semi dt uf mass t s)).
Proof.
  intros cf En caseR solve semi dt uf t s Hs Hdt Hk Hg.
  set (G := fun (e : En) (u _ : nat -> R) => tvec W cf (caseR e) u).
  assert (Hd : forall i, (i < ns BackwardEulerTab)%nat -> ta BackwardEulerTab i i <> 0).
  { intros i Hi. cbn in Hi. replace i with O by lia. cbn. lra. }
  destruct (uform_advance_spec BackwardEulerTab G solve semi dt uf mass t Hs ltac:(lra) Hd) with (s := s) as ((y & k & Hy & Hu) & _).
  - intros i e base u Hi. pose proof (Hk e) as A1. cbn in Hi. replace i with O by lia.
    destruct (p0_system_onto cf dt (caseR e) (fun x => base x + dt * tvec W cf (caseR e) (fun _ => 0) x)) as (v & Hv);
      [exact A1|intro E; apply Hg, E|lra|].
    exists v. intro x. specialize (Hv x). unfold G.
    pose proof (rows_affine W cf (caseR e) (fun _ => 0) 1 v x) as A.
    replace (plus (fun _ => 0) 1 v) with v in A by (apply functional_extensionality; intro; unfold plus; ring).
    cbn [ta BackwardEulerTab tab nth lmat]. cbn. rewrite A. lra.
  - cbn; lia.
  - set (co := forced uf (abscissae t dt (tc BackwardEulerTab) 1) (env s)) in *.
    specialize (Hy 0%nat ltac:(cbn; lia)). destruct Hy as [Hy1 Hy2]. exists co. fold G. rewrite Hu.
    change (ns BackwardEulerTab - 1)%nat with 0%nat.
    pose proof Hcells as (Hnum & _ & _ & Ha).
    intros K HK. pose proof (f_equal (fun f => f K) Hy1) as Q. cbv beta in Q.
    rewrite (mass_p0 M n cell_v cell_f cell_b Hnum) in Q by exact HK. rewrite Q.
    unfold along, Sum. cbn. rewrite (mass_p0 M n cell_v cell_f cell_b Hnum) by exact HK. rewrite Hy2. unfold G.
    fold co. ring.
Qed.

Theorem C88_backward_euler_range : forall (En : Type) (caseR : En -> tcase) solve semi lo hi dt uf ts (s : @st nat En),
  exact_solver solve -> 0 < dt ->
  (forall e, carries (caseR e) /\ fed_above M lo (caseR e) /\ fed_below M hi (caseR e)) ->
  within n lo hi (sol s) ->
  within n lo hi (sol (fold_left (fun s t =>
    uform_advance BackwardEulerTab (fun e u _ => tvec W false (caseR e) u) solve semi dt uf mass t s) ts s)).
Proof.
  intros En caseR solve semi lo hi dt uf ts s Hs Hdt Hk. revert s.
  induction ts as [|t ts IH]; intros s Hin; cbn [fold_left]; [exact Hin|]. apply IH.
  destruct (backward_euler_stepped false En caseR solve semi dt uf t s Hs Hdt) as (e & St); [intro e; apply Hk|discriminate|].
  destruct (Hk e) as (A1 & A2 & A3). pose proof Hcells as (_ & _ & _ & Ha).
  assert (Z0 : forall K, (K < n)%nat -> dt * (1 - 1) * intake (caseR e) K <= area K).
  { intros K HK. specialize (Ha K HK). replace (dt * (1 - 1) * intake (caseR e) K) with 0 by ring. lra. }
  intros K HK. split.
  - refine (step_above _ _ _ _ lo _ _ A1 A1 A2 A2 _ _ Z0 St _ K HK); [lra|lra|]. intros L HL. apply (Hin L HL).
  - refine (step_below _ _ _ _ hi _ _ A1 A1 A3 A3 _ _ Z0 St _ K HK); [lra|lra|]. intros L HL. apply (Hin L HL).
Qed.

Theorem C88_backward_euler_positive : forall (En : Type) (caseR : En -> tcase) solve semi dt uf ts (s : @st nat En),
  exact_solver solve -> 0 < dt ->
  (forall e, carries (caseR e) /\ fed_positive M (caseR e) /\ inflow_given M (caseR e)) ->
  above n 0 (sol s) ->
  above n 0 (sol (fold_left (fun s t =>
    uform_advance BackwardEulerTab (fun e u _ => tvec W true (caseR e) u) solve semi dt uf mass t s) ts s)).
Proof.
  intros En caseR solve semi dt uf ts s Hs Hdt Hk. revert s.
  induction ts as [|t ts IH]; intros s Hin; cbn [fold_left]; [exact Hin|]. apply IH.
  destruct (backward_euler_stepped true En caseR solve semi dt uf t s Hs Hdt) as (e & St); [intro e; apply Hk|intros _ e; apply Hk|].
  destruct (Hk e) as (A1 & A2 & A3). pose proof Hcells as (_ & _ & _ & Ha).
  assert (Z0 : forall K, (K < n)%nat -> dt * (1 - 1) * output (caseR e) K <= area K).
  { intros K HK. specialize (Ha K HK). replace (dt * (1 - 1) * output (caseR e) K) with 0 by ring. lra. }
  refine (step_positive _ _ _ _ _ _ A1 A1 A2 A2 A3 _ _ Z0 St Hin); lra.
Qed.
End Bounds.

Print Assumptions C88_step_exists.
Print Assumptions C88_step_unique.
Print Assumptions C88_never_leaves_range.
Print Assumptions C88_conservative_never_negative.
Print Assumptions C88_ssprk33_range.
Print Assumptions C88_explicit_range.
Print Assumptions C88_backward_euler_range.
Print Assumptions C88_backward_euler_positive.
