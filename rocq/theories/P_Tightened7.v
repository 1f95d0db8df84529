(** Further properties, found missing by trying wrong programs: names of exported
    fields (C58), the velocity that carries tracers (C59), flow along the bed (C64). *)
From Coq Require Import Reals List Bool Lra Lia String Ascii FunctionalExtensionality.
From Verif Require Import Exporter_Model Callback_Proofs Registry_Model P_Registry Forms_Model Forms_Spec Forms_Proofs Forms_Examples
  Forms3d_Model Nonhydro_Model P_Diag P_Nonhydro.
Import ListNotations.
Open Scope string_scope.

(** ** C58 *)

Lemma has_space_get : forall s, has_space s = true <-> exists n, String.get n s = Some " "%char.
Proof.
  induction s as [|c r IH]; cbn [has_space].
  - split; [discriminate|]. intros [n Hn]. destruct n; discriminate Hn.
  - rewrite orb_true_iff, IH. split.
    + intros [H|[n Hn]]; [exists 0%nat; apply Ascii.eqb_eq in H; subst; reflexivity|exists (S n); exact Hn].
    + intros [[|n] Hn]; [left; injection Hn as ->; reflexivity|right; exists n; exact Hn].
Qed.

(** A new field is refused exactly for a non-Function, a known label, or a label or file
    name with a space at some position. *)
Theorem C58_refused_names : forall p i id mx label name file short u pp,
  nth_error (p_solvers p) i <> None -> dict_get (p_reg p) label = None ->
  (snd (add_new_field p i (VFun id mx) label name file short u pp) = Some RAssertion
   <-> exists n, String.get n label = Some " "%char \/ String.get n file = Some " "%char)
  /\ (snd (add_new_field p i (VFun id mx) label name file short u pp) = None
   <-> forall n, String.get n label <> Some " "%char /\ String.get n file <> Some " "%char).
Proof.
  intros p i id mx label name file short u pp Hi Hl.
  pose proof (C58_add_field_accepted p i (VFun id mx) label name file short u pp Hi) as [Hacc _].
  assert (A : snd (add_new_field p i (VFun id mx) label name file short u pp) = None
    <-> forall n, String.get n label <> Some " "%char /\ String.get n file <> Some " "%char).
  { rewrite Hacc. split.
    - intros (_ & _ & H1 & H2) n. split; intro H.
      + assert (X : has_space label = true) by (apply has_space_get; exists n; exact H). congruence.
      + assert (X : has_space file = true) by (apply has_space_get; exists n; exact H). congruence.
    - intros H. repeat split; [exists id, mx; reflexivity|exact Hl| |].
      + destruct (has_space label) eqn:E; [|reflexivity]. apply has_space_get in E as [n E]. destruct (H n) as [H1 _]. contradiction.
      + destruct (has_space file) eqn:E; [|reflexivity]. apply has_space_get in E as [n E]. destruct (H n) as [_ H1]. contradiction. }
  split; [|exact A].
  assert (D : (has_space label || has_space file)%bool = true <-> exists n, String.get n label = Some " "%char \/ String.get n file = Some " "%char).
  { rewrite orb_true_iff, !has_space_get. split.
    - intros [[n H]|[n H]]; exists n; auto.
    - intros [n [H|H]]; [left|right]; exists n; exact H. }
  rewrite <- D. split.
  - intros H. destruct (has_space label || has_space file)%bool eqn:E; [reflexivity|exfalso].
    apply orb_false_iff in E as [E1 E2]. assert (X : snd (add_new_field p i (VFun id mx) label name file short u pp) = None).
    { apply Hacc. repeat split; [exists id, mx; reflexivity|exact Hl|exact E1|exact E2]. }
    congruence.
  - intros E. unfold add_new_field. rewrite <- orb_assoc, E, orb_true_r. reflexivity.
Qed.

(** An added field is exported under its short name, or its name if none was given, and
    its own file name; the names of all other fields are unchanged. *)
Theorem C58_exported_names : forall p i v label name file short u pp p',
  add_new_field p i v label name file short u pp = (p', None) ->
  export_meta p' label = Some (match short with Some "" | None => name | Some s => s end, file)
  /\ forall k, k <> label -> export_meta p' k = export_meta p k.
Proof.
  intros p i v label name file short u pp p' H.
  assert (HM : dict_get (p_reg p') label
     = Some (mk_meta name (match short with Some s => if String.eqb s "" then name else s | None => name end) u file)
     /\ forall k, k <> label -> dict_get (p_reg p') k = dict_get (p_reg p) k).
  { unfold add_new_field in H. destruct v as [id mx| |]; [|discriminate|discriminate].
    destruct (has (p_reg p) label || has_space label || has_space file)%bool; [discriminate|].
    unfold set_field in H. cbn [p_solvers p_reg p_name] in H.
    destruct (nth_error (p_solvers p) i) as [s|] eqn:Ei; [|discriminate].
    destruct (check_inputs _ label (VFun id mx)); [discriminate|]. cbn [p_reg p_solvers p_name] in H.
    assert (R : p_reg p' = dict_set (p_reg p) label (mk_meta name (match short with Some s => if String.eqb s "" then name else s | None => name end) u file)).
    { destruct pp; [match type of H with context [match ?x with _ => _ end] => destruct x end|];
      apply (f_equal fst) in H; cbn [fst] in H; rewrite <- H; reflexivity. }
    rewrite R. split; [rewrite dict_get_set, String.eqb_refl; reflexivity|].
    intros k Hk. rewrite dict_get_set. destruct (String.eqb_spec k label); [contradiction|reflexivity]. }
  destruct HM as [H1 H2]. unfold export_meta. rewrite H1. cbn [md_short md_file]. split.
  - destruct short as [[|c r]|]; reflexivity.
  - intros k Hk. rewrite (H2 k Hk). reflexivity.
Qed.
Example C58_exported_example : let p := new_solver3d (start (fun _ => "")) in
  export_meta (fst (add_new_field p 0 (VFun 7 false) "dye_3d" "Dye concentration" "Dye3d" (Some "Dye") "kg" None)) "dye_3d"
  = Some ("Dye", "Dye3d")
  /\ snd (add_new_field p 0 (VFun 7 false) "dye 3d" "Dye" "Dye3d" None "kg" None) = Some RAssertion.
Proof. split; reflexivity. Qed.

(** ** C59 *)
Open Scope R_scope.

(** A tracer is carried by the sum of the 3D velocity and the depth average: only the
    sum matters, however it is split. *)
Theorem C59_total_velocity : forall {V F E : Type} (M : mesh3 V F E) hdg vdg symm lax u d s w wm muh muv sh sv ph pv src bnd s0,
  (forall p, val_v s p = add3 (val_v u p) (val_v d p)) ->
  (forall f side, val_f s f side = add3 (val_f u f side) (val_f d f side)) ->
  (forall e, val_e s e = add3 (val_e u e) (val_e d e)) ->
  forall phi c,
  tracer_residual3 M (mk_tenv3 hdg vdg symm lax (Some u) (Some d) w wm muh muv sh sv ph pv src bnd s0) phi c
  = tracer_residual3 M (mk_tenv3 hdg vdg symm lax (Some s) None w wm muh muv sh sv ph pv src bnd s0) phi c.
Proof.
  intros V F E M hdg vdg symm lax u d s w wm muh muv sh sv ph pv src bnd s0 H1 H2 H3 phi c.
  assert (E1 : val_v (add_v u d) = val_v s) by (apply functional_extensionality; intro p; rewrite H1; reflexivity).
  assert (E2 : val_f (add_v u d) = val_f s) by (apply functional_extensionality; intro f; apply functional_extensionality; intro x; rewrite H2; reflexivity).
  assert (E3 : val_e (add_v u d) = val_e s) by (apply functional_extensionality; intro e; rewrite H3; reflexivity).
  unfold tracer_residual3. do 4 f_equal.
  unfold hor_adv, full_uv. cbn [k_uv k_dav k_hdg k_symm k_lax].
  unfold adv_lat, avg3, c_up, upw, sgn, ext_uv. cbn [k_bnd k_sign0].
  rewrite E1, E2, E3. reflexivity.
Qed.
Example C59_total_velocity_example : forall {V F E : Type} (u d : vfield3 V F E),
  let s := add_v u d in
  (forall p, val_v s p = add3 (val_v u p) (val_v d p)) /\
  (forall f side, val_f s f side = add3 (val_f u f side) (val_f d f side)) /\
  (forall e, val_e s e = add3 (val_e u e) (val_e d e)).
Proof. intros. repeat split. Qed.

(** ** C64 *)

(** A flow without horizontal divergence whose vertical velocity follows the bed
    everywhere, w = - u . grad(bathymetry), is left alone: the correction finds no
    pressure and changes neither velocity. *)
Theorem C64_flow_along_bed : forall {V F B : Type} (E : nh_env (V := V) (F := F) (B := B))
    (QS : sfield V F B -> Prop) (US : (V -> R * R) -> Prop) (WS : (V -> R) -> Prop) u w q u' w', wet E ->
  (forall p, In p (m_cells (nh_mesh E)) -> dot2 (gh E p) (gh E p) < 16) -> (forall k, nh_bnd E k = false) ->
  (forall a b, QS a -> QS b -> QS (sub_s a b)) -> QS (const_s 0) ->
  (forall d, QS d -> (forall p, In p (m_cells (nh_mesh E)) -> s_v d p = 0) ->
     forall p, In p (m_cells (nh_mesh E)) -> s_gv d p = (0, 0)) ->
  US (vv u) -> (forall a b, US a -> US b -> US (fun p => sub2 (a p) (b p))) ->
  WS w -> (forall a b, WS a -> WS b -> WS (fun p => a p - b p)) ->
  (forall t, QS t -> dx (nh_mesh E) (fun p => dot2 (vv u p) (s_gv t p)) = 0) ->
  (forall p, In p (m_cells (nh_mesh E)) ->
     w p = - (fst (vv u p) * fst (s_gv (nh_bath E) p) + snd (vv u p) * snd (s_gv (nh_bath E) p))) ->
  nh_solve E QS US WS true u w q u' w' ->
  forall p, In p (m_cells (nh_mesh E)) -> s_v q p = 0 /\ vv u' p = vv u p /\ w' p = w p.
Proof.
  intros V F B E QS US WS u w q u' w' W G C CS S0 DT SU CU SW CW Hd Hw Hs.
  apply (C64_consistent_flow E QS US WS u w q u' w' W G C CS S0 DT SU CU SW CW); [|exact Hs].
  intros t Ht. unfold continuity. rewrite (Hd t Ht).
  rewrite (dx_ext E (fun p => (w p - w_bed E u p) / (s_v (nh_h E) p / 2) * s_v t p) (fun p => 0 * 0)).
  - rewrite (dx_scal E 0 (fun _ => 0)). ring.
  - intros p Hp. rewrite (Hw p Hp). unfold w_bed, dot2.
    replace (- (fst (vv u p) * fst (s_gv (nh_bath E) p) + snd (vv u p) * snd (s_gv (nh_bath E) p))
      - - (fst (vv u p) * fst (s_gv (nh_bath E) p) + snd (vv u p) * snd (s_gv (nh_bath E) p))) with 0 by ring.
    unfold Rdiv. ring.
Qed.
(** Unit flow down a bed of unit slope, constant pressures: all hypotheses hold. *)
Definition con_fields (s : sfield nat nat nat) : Prop := exists a, forall c, s_v s c = a /\ s_gv s c = (0, 0).
Example C64_flow_along_bed_example : let E := slope_env in let u := uniform 1 in let w := fun _ : nat => -1 in
  wet E /\
  (forall p, In p (m_cells (nh_mesh E)) -> dot2 (gh E p) (gh E p) < 16) /\ (forall k, nh_bnd E k = false) /\
  (forall a b, con_fields a -> con_fields b -> con_fields (sub_s a b)) /\ con_fields (const_s 0) /\
  (forall d, con_fields d -> (forall p, In p (m_cells (nh_mesh E)) -> s_v d p = 0) ->
     forall p, In p (m_cells (nh_mesh E)) -> s_gv d p = (0, 0)) /\
  (forall t, con_fields t -> dx (nh_mesh E) (fun p => dot2 (vv u p) (s_gv t p)) = 0) /\
  (forall p, In p (m_cells (nh_mesh E)) ->
     w p = - (fst (vv u p) * fst (s_gv (nh_bath E) p) + snd (vv u p) * snd (s_gv (nh_bath E) p))) /\
  nh_solve E con_fields vec_space con_values true u w (const_s 0) u w.
Proof.
  cbv zeta. split; [apply (flat_wet (fun _ => false))|].
  split. { intros p _. unfold gh, dot2, slope_env, lin, affine. cbn [nh_elev nh_bath s_gv fst snd]. lra. }
  split; [reflexivity|].
  split. { intros a b (x & Ha) (y & Hb). exists (x - y). intro c. destruct (Ha c) as [A1 A2], (Hb c) as [B1 B2].
    unfold sub_s. cbn [s_v s_gv]. rewrite A1, B1, A2, B2. split; [ring|]. unfold sub2. cbn [fst snd]. f_equal; ring. }
  split. { exists 0. intro c. split; reflexivity. }
  split. { intros d (x & Hd) _ p _. apply Hd. }
  split. { intros t (x & Ht). unfold dx, integral. cbn -[Rplus Rmult Rminus Rdiv Ropp IZR dot2].
    destruct (Ht 0%nat) as [_ T0], (Ht 1%nat) as [_ T1]. rewrite T0, T1. unfold dot2. cbn [fst snd]. ring. }
  split. { intros p _. unfold uniform, vv, lin, affine, slope_env, two. cbn [v_x v_y nh_bath s_v s_gv fst snd].
    destruct p as [|[|p]]; cbn -[Rplus Rmult Rminus Rdiv Ropp IZR]; lra. }
  split; [|split].
  - split; [exists 0; intro c; split; reflexivity|]. intros t (x & Ht).
    unfold nh_form, nh_cells, nh_open, ds_open, dx, ds, integral, nh_const, w_bed, gh, gh_b, grad_qth, dot2.
    destruct (Ht 0%nat) as [S0 T0], (Ht 1%nat) as [S1 T1].
    cbn -[Rplus Rmult Rminus Rdiv Ropp IZR]. rewrite S0, S1, T0, T1. cbn [fst snd]. field.
  - split.
    { exists 1. intros c [<-|[<-|[]]]; unfold vv; cbn -[Rplus Rmult Rminus Rdiv Ropp IZR]; f_equal; field. }
    intros t (a & Ha). unfold dx, integral, nh_rhs_u, gh, dot2.
    cbn -[Rplus Rmult Rminus Rdiv Ropp IZR]. rewrite (Ha 0%nat), (Ha 1%nat) by (cbn; tauto). cbn [fst snd]. lra.
  - split.
    { exists (-1). intros c _. reflexivity. }
    intros t (a & Ha). unfold dx, integral.
    cbn -[Rplus Rmult Rminus Rdiv Ropp IZR]. rewrite (Ha 0%nat), (Ha 1%nat) by (cbn; tauto). field.
Qed.
Print Assumptions C58_refused_names.
Print Assumptions C58_exported_names.
Print Assumptions C59_total_velocity.
Print Assumptions C64_flow_along_bed.
