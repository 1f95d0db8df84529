(** C88: a river through two cells, and what fails without the conditions. *)
From Coq Require Import Reals List String Bool Arith Lia Lra FunctionalExtensionality.
From Verif Require Import Forms_Model Forms_Spec Forms_Proofs P_SWE P_Tracer2d
  RK_Model RK_Spec RK_Proofs RK_Proofs3 RK_Proofs4 TimeInt_Model TimeInt_Spec TimeInt_Proofs P_RungeKutta P_TimeInt
  Galerkin_Model Galerkin_Proofs P_Galerkin LinSys_Proofs Variance_Spec P_Variance Forms_Examples P_Tracer2d_Examples
  Bounds_Spec Bounds_Proofs P_Bounds.
Import ListNotations.
Open Scope R_scope.

Ltac crunch3 := cbn -[Rplus Rmult Rminus Rdiv Ropp Rinv IZR sqrt Rmax].

(** Uniform flow in x, the value [v] where the water comes in (marker 1, at the left),
    no condition at the other boundaries; diffusivity 1 and Lax-Friedrichs, or neither. *)
Definition stream_env (mixed : bool) (v : option R) : tracer_env nat nat nat :=
  mk_tenv true (if mixed then Some (1, fun _ => 1) else None)
    (fun m => match m with
              | 1%nat => Some (mk_tb (option_map (fun v _ => v) v) USym None (Some (fun _ => 0)))
              | _ => None
              end) (if mixed then Some (const_s 1) else None) (fun _ _ => 4) None 0.
Definition stream (mixed : bool) (v : option R) : @tcase nat nat nat :=
  mk_tcase basin (stream_env mixed v) uniform (const_s 0) (fun _ => (0, 0)).
Definition cv2 (p : nat) : nat := match p with O => 0%nat | _ => 1%nat end.

Lemma two_numbered : numbered 2 cv2 cf cb.
Proof.
  split; [|split].
  - intros [|p]; cbn; lia.
  - intros f [|]; cbn; lia.
  - intro b. unfold cb. do 6 (destruct b as [|b]; [cbn; lia|]). cbn. lia.
Qed.
Lemma two_areas : forall K, (K < 2)%nat -> cell_area two_cells cv2 K = 1.
Proof. intros [|[|K]] HK; [| |lia]; unfold cell_area, dx, integral; crunch3; lra. Qed.
Lemma two_mesh : cells two_cells 2 cv2 cf cb.
Proof.
  split; [exact two_numbered|]. split; [exact two_weights|]. split; [exact two_normals|].
  intros K HK. rewrite two_areas by exact HK. lra.
Qed.

Lemma stream_un : forall f s, un_f basin uniform f s = if s then 1 else -1.
Proof. intros f [|]; unfold un_f, vf, normal, dot2, uniform; crunch3; lra. Qed.
Lemma stream_lax : forall mixed v f, lax (stream_env mixed v) f = if mixed then 1/2 else 0.
Proof. intros [|] v f; unfold lax; crunch3; lra. Qed.
Lemma stream_psig : forall mixed v f, psig (stream_env mixed v) f = 4.
Proof. intros mixed v f. unfold psig. crunch3. destruct (Rgt_dec 4 4); reflexivity. Qed.

Lemma stream_carries : forall mixed v, carries two_cells 2 cv2 cf cb (stream mixed v).
Proof.
  intros mixed v. split; [reflexivity|]. split; [reflexivity|]. split; [|split; [|split; [|split]]].
  - intros K HK. unfold gauss_sv, gauss, dx, dS, ds, integral, divv, unb, vb, vf, vv, dot2, normal.
    unfold ind, p0_field, cv2, cf, cb, edge, stream, uniform. crunch3. destruct K as [|[|K]]; lra.
  - intros f _. cbn [stream tc_E tc_uv]. rewrite !stream_un. lra.
  - intros b Hb tb Htb. cbn [stream tc_E tc_T tc_uv tc_elev] in *.
    destruct (m_marker (e_mesh basin) b) as [|[|m]]; try discriminate. injection Htb as <-. reflexivity.
  - intro f. cbn [stream tc_T]. rewrite stream_lax. destruct mixed; lra.
  - intros mu Hm. cbn [stream tc_T stream_env t_mu] in Hm. destruct mixed; [|discriminate]. injection Hm as <-. split.
    + intro f. cbn [stream tc_T]. rewrite stream_psig. unfold avg. crunch3. lra.
    + intros m tb Htb. cbn [stream tc_T stream_env t_bnd] in Htb. destruct m as [|[|m]]; try discriminate. injection Htb as <-.
      intro b. reflexivity.
Qed.

Lemma stream_fed : forall mixed v lo, lo <= v -> fed_above two_cells lo (stream mixed (Some v)).
Proof.
  intros mixed v lo H. split; [|intros s E; discriminate E]. intros b tb w Eb Ew. cbn [stream tc_T stream_env t_bnd] in Eb.
  destruct (m_marker two_cells b) as [|[|m]]; try discriminate. injection Eb as <-. injection Ew as <-. exact H.
Qed.
Lemma stream_fed_below : forall mixed v hi, v <= hi -> fed_below two_cells hi (stream mixed (Some v)).
Proof.
  intros mixed v lo H. split; [|intros s E; discriminate E]. intros b tb w Eb Ew. cbn [stream tc_T stream_env t_bnd] in Eb.
  destruct (m_marker two_cells b) as [|[|m]]; try discriminate. injection Eb as <-. injection Ew as <-. exact H.
Qed.

Lemma stream_bnd : forall b, In b (m_bnds two_cells) -> unb two_cells uniform b = match b with 0%nat => -1 | 3%nat => 1 | _ => 0 end.
Proof. intros b Hb. cbn in Hb. repeat (destruct Hb as [<-|Hb]; [unfold unb, vb, dot2, uniform; crunch3; lra|]). destruct Hb. Qed.

Lemma stream_intake : forall v K, (K < 2)%nat -> intake two_cells cf cb (stream true v) K = 11/2.
Proof.
  intros v K HK. unfold intake.
  assert (E1 : dS two_cells (fun f => inflow_f (tc_E (stream true v)) (tc_T (stream true v)) cf (tc_uv (stream true v)) K f
               + exchange cf (stream true v) K f) = if Nat.eqb K 0 then 9/2 else 11/2).
  { unfold dS, integral. cbn [two_cells m_facets m_wf map fold_right]. unfold inflow_f, exchange. cbn [stream tc_E tc_T tc_uv stream_env t_mu].
    rewrite !stream_un. change (lax _ 0%nat) with (lax (stream_env true v) 0%nat). rewrite stream_lax.
    change (psig _ 0%nat) with (psig (stream_env true v) 0%nat). rewrite stream_psig. unfold avg, on, cf.
    rewrite (Rmax_left 0 (- (1))) by lra. rewrite (Rmax_right 0 (- -1)) by lra.
    destruct K as [|[|K]]; [| |lia]; crunch3; lra. }
  assert (E2 : ds two_cells (inflow_b (tc_E (stream true v)) cb (tc_uv (stream true v)) K) = if Nat.eqb K 0 then 1 else 0).
  { transitivity (ds two_cells (fun b => on K (cb b) * Rmax 0 (- match b with 0%nat => -1 | 3%nat => 1 | _ => 0 end))).
    - unfold ds. apply integral_ext. intros b Hb. unfold inflow_b. cbn [stream tc_E tc_uv]. change (e_mesh basin) with two_cells.
      rewrite stream_bnd by exact Hb. reflexivity.
    - unfold ds, integral, on, cb. crunch3. rewrite !Ropp_0, (Rmax_left 0 0), (Rmax_left 0 (- (1))), (Rmax_right 0 (- -1)) by lra.
      destruct K as [|[|K]]; [| |lia]; crunch3; lra. }
  rewrite E1, E2. destruct K as [|[|K]]; [| |lia]; cbn [Nat.eqb]; lra.
Qed.

(** The water brings 3 or 0, as a coefficient says; the values in the cells stay
    between 0 and 3 with the default offset 1/2 and steps up to 1/4, and with fully
    implicit steps of any length. *)
Definition inlet_value (f : string -> option bool) : R := match f "v"%string with Some true => 3 | _ => 0 end.
Example C88_stream_example : forall solve uf dt ts (s : @tst nat bool unit) keys kind semi theta,
  exact_solver solve -> 0 <= dt -> (theta = 1 \/ theta = 1/2 /\ dt <= 1/4) ->
  tsol s = two 3 0 ->
  let step := cn_advance keys kind (TRes (p0_space 2 cv2 cf cb) (fun f _ _ => stream true (Some (inlet_value f))) false)
                (tracer_mass (p0_space 2 cv2 cf cb) two_cells) solve dt uf theta semi in
  forall K, (K < 2)%nat -> 0 <= tsol (fold_left (fun s t => step t s) ts s) K <= 3.
Proof.
  intros solve uf dt ts s keys kind semi theta Hs Hdt Hth E step.
  assert (Hv : forall f, 0 <= inlet_value f <= 3).
  { intro f. unfold inlet_value. destruct (f "v"%string) as [[|]|]; lra. }
  apply (C88_never_leaves_range two_cells 2 cv2 cf cb two_mesh (fun f _ _ => stream true (Some (inlet_value f))) keys kind solve dt uf theta semi 0 3 ts s Hs Hdt).
  - destruct Hth as [->|[-> _]]; lra.
  - intros f fo b k. split; [apply stream_carries|]. split; [apply stream_fed, Hv|]. split; [apply stream_fed_below, Hv|].
    intros K HK. unfold k. rewrite stream_intake, two_areas by exact HK. destruct Hth as [->|[-> H]]; lra.
  - rewrite E. intros [|[|K]] HK; cbn [two]; lra.
Qed.

(** the values do change: the water leaves the first cell *)
Lemma stream_rows : forall c, tvec (p0_space 2 cv2 cf cb) false (stream false (Some 0)) c 0%nat = - c 0%nat.
Proof.
  intro c. rewrite (rows_split two_cells 2 cv2 cf cb two_numbered _ c 0%nat ltac:(lia) (stream_carries false (Some 0)) two_normals).
  unfold supply. cbn [stream tc_T stream_env t_source].
  assert (E1 : dS two_cells (fun f => carried cf (stream false (Some 0)) c 0 f + spreading cf (stream false (Some 0)) c (on 0) f) = 0).
  { unfold dS, integral. cbn [two_cells m_facets m_wf map fold_right]. unfold carried, spreading. cbn [stream tc_E tc_T tc_uv stream_env t_mu].
    assert (U : un_av basin uniform 0%nat = -1). { rewrite (un_av_eq basin uniform 0%nat); rewrite !stream_un; lra. }
    rewrite U, !stream_un. change (lax _ 0%nat) with (lax (stream_env false (Some 0)) 0%nat). rewrite stream_lax.
    rewrite (up_neg _ (-1)) by lra. unfold on, cf. crunch3. lra. }
  assert (E2 : ds two_cells (bnd_change basin (tc_T (stream false (Some 0))) cb c uniform 0 (const_s 0)) = - c 0%nat).
  { unfold ds, integral. cbn [two_cells m_bnds m_wb map fold_right]. unfold bnd_change.
    change (e_mesh basin) with two_cells. rewrite !stream_bnd by (cbn; tauto).
    cbn [stream tc_T stream_env t_bnd two_cells m_marker edge snd option_map tb_value]. rewrite (up_neg _ (-1)) by lra.
    unfold on, cb, c_ext. crunch3. lra. }
  cbn [stream tc_T tc_E tc_uv tc_elev] in E1, E2 |- *. rewrite E1, E2. ring.
Qed.

(** The default offset 1/2 is not safe with long steps, whatever the solver: from
    the value 1 in both cells and clean water at the inlet a step of 4 leads to a
    negative value. *)
Theorem C88_default_offset_refuted :
  exists (k : @tcase nat nat nat) dt c, 0 <= dt /\ within 2 0 1 c /\
    carries two_cells 2 cv2 cf cb k /\ fed_above two_cells 0 k /\ fed_below two_cells 1 k /\
    forall c', theta_step (tracer_mass (p0_space 2 cv2 cf cb) two_cells)
      (tvec (p0_space 2 cv2 cf cb) false k) (tvec (p0_space 2 cv2 cf cb) false k) dt (1/2) c c' -> c' 0%nat < 0.
Proof.
  exists (stream false (Some 0)), 4, (fun _ => 1). split; [lra|]. split; [intros K _; lra|].
  split; [apply stream_carries|]. split; [apply stream_fed; lra|]. split; [apply stream_fed_below; lra|].
  intros c' H. specialize (H 0%nat). rewrite !(mass_p0 two_cells 2 cv2 cf cb two_numbered), !stream_rows, !two_areas in H by lia. lra.
Qed.

(** In the conservative form, water that comes in without a given value breaks the
    implicit step too: it is taken to bring what is in the cell. *)
Definition inrush : vfield nat nat nat :=
  mk_vf (affine (two (1/2) 0) (two (-1) 0) (two 0 0)) (affine (fun _ => 0) (fun _ => 0) (fun _ => 0)).
Definition unfed : @tcase nat nat nat := mk_tcase basin (stream_env false None) inrush (const_s 0) (fun _ => (0, 0)).

Lemma inrush_un : forall f s, un_f basin inrush f s = 0.
Proof. intros f [|]; unfold un_f, vf, normal, dot2, inrush; crunch3; lra. Qed.
Lemma inrush_bnd : forall b, In b (m_bnds two_cells) -> unb two_cells inrush b = match b with 0%nat => -1 | _ => 0 end.
Proof. intros b Hb. cbn in Hb. repeat (destruct Hb as [<-|Hb]; [unfold unb, vb, dot2, inrush; crunch3; lra|]). destruct Hb. Qed.

Lemma unfed_carries : carries two_cells 2 cv2 cf cb unfed.
Proof.
  split; [reflexivity|]. split; [reflexivity|]. split; [|split; [|split; [|split]]].
  - intros K HK. unfold gauss_sv, gauss, dx, dS, ds, integral, divv, unb, vb, vf, vv, dot2, normal.
    unfold ind, p0_field, cv2, cf, cb, edge, unfed, inrush. crunch3. destruct K as [|[|K]]; lra.
  - intros f _. cbn [unfed tc_E tc_uv]. rewrite !inrush_un. lra.
  - intros b Hb tb Htb. cbn [unfed tc_E tc_T tc_uv tc_elev] in *.
    destruct (m_marker (e_mesh basin) b) as [|[|m]]; try discriminate. injection Htb as <-. reflexivity.
  - intro f. cbn [unfed tc_T]. rewrite stream_lax. lra.
  - intros mu Hm. discriminate Hm.
Qed.

Lemma unfed_rows : forall c, tvec (p0_space 2 cv2 cf cb) true unfed c 0%nat = c 0%nat.
Proof.
  intro c. rewrite (cons_rows two_cells 2 cv2 cf cb two_numbered _ c 0%nat ltac:(lia) unfed_carries two_normals).
  unfold supply_cons. cbn [unfed tc_T stream_env t_source].
  assert (E1 : dS two_cells (fun f => passed cf unfed c (on 0) f + spreading cf unfed c (on 0) f) = 0).
  { apply dS_zero. intros f _. unfold passed, spreading. cbn [unfed tc_E tc_T tc_uv stream_env t_mu]. rewrite !inrush_un.
    change (lax _ f) with (lax (stream_env false None) f). rewrite stream_lax. ring. }
  assert (E2 : ds two_cells (passed_b two_cells cb unfed c (on 0)) = c 0%nat).
  { unfold ds, integral. cbn [two_cells m_bnds m_wb map fold_right]. unfold passed_b. cbv zeta. cbn [unfed tc_uv tc_T].
    rewrite !inrush_bnd by (cbn; tauto).
    cbn [stream_env t_bnd two_cells m_marker edge snd option_map tb_value]. rewrite (up_neg _ (-1)) by lra.
    unfold on, cb, c_ext. crunch3. lra. }
  rewrite E1, E2. ring.
Qed.

Theorem C88_unfed_inflow_refuted :
  exists (k : @tcase nat nat nat) dt c, 0 <= dt /\ above 2 0 c /\
    carries two_cells 2 cv2 cf cb k /\ fed_positive two_cells k /\ ~ inflow_given two_cells k /\
    forall c', theta_step (tracer_mass (p0_space 2 cv2 cf cb) two_cells)
      (tvec (p0_space 2 cv2 cf cb) true k) (tvec (p0_space 2 cv2 cf cb) true k) dt 1 c c' -> c' 0%nat < 0.
Proof.
  exists unfed, 2, (fun _ => 1). split; [lra|]. split; [intros K _; lra|].
  split; [apply unfed_carries|]. split.
  { split; [|intros s E; discriminate E]. intros b tb v Eb Ev. cbn [unfed tc_T stream_env t_bnd] in Eb.
    destruct (m_marker two_cells b) as [|[|m]]; try discriminate. injection Eb as <-. discriminate Ev. }
  split.
  { intro H. destruct (H 0%nat) as (tb & v & E1 & E2); [left; reflexivity|cbn [unfed tc_uv]; rewrite inrush_bnd by (left; reflexivity); lra|].
    cbn in E1. injection E1 as <-. discriminate E2. }
  intros c' H. specialize (H 0%nat). rewrite !(mass_p0 two_cells 2 cv2 cf cb two_numbered), !unfed_rows, !two_areas in H by lia. lra.
Qed.

(** amounts carried by the stream with an inlet value, implicit steps of any length *)
Example C88_amount_example : forall solve semi dt (uf : option (R -> unit -> unit)) ts (s : @st nat unit),
  exact_solver solve -> 0 < dt -> sol s = two 3 0 ->
  forall K, (K < 2)%nat -> 0 <= sol (fold_left (fun s t =>
    uform_advance BackwardEulerTab (fun e u _ => tvec (p0_space 2 cv2 cf cb) true (stream true (Some 2)) u) solve semi dt uf
      (tracer_mass (p0_space 2 cv2 cf cb) two_cells) t s) ts s) K.
Proof.
  intros solve semi dt uf ts s Hs Hdt E.
  apply (C88_backward_euler_positive two_cells 2 cv2 cf cb two_mesh unit (fun _ => stream true (Some 2)) solve semi dt uf ts s Hs Hdt).
  - intros _. split; [apply stream_carries|]. split.
    + split; [|intros s0 E0; discriminate E0]. destruct (stream_fed true 2 0 ltac:(lra)) as [H _]. exact H.
    + intros b Hb Hq. cbn [stream tc_uv] in Hq. rewrite stream_bnd in Hq by exact Hb.
      cbn in Hb. repeat (destruct Hb as [<-|Hb]; [try (exfalso; lra)|]); [|destruct Hb].
      eexists. eexists. split; reflexivity.
  - rewrite E. intros [|[|K]] HK; cbn [two]; lra.
Qed.

Print Assumptions C88_default_offset_refuted.
Print Assumptions C88_unfed_inflow_refuted.
