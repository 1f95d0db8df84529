(** C55: concrete set-ups, the steps that fail and the non-hydrostatic step. *)
From Coq Require Import String List Bool Arith Lia.
From Verif Require Import Exporter_Model Callback_Proofs Coupled2d_Model Coupled2d_Spec P_Coupled2d.
Import ListNotations.
Open Scope string_scope.

(** Two tracers with two Picard iterations. *)
Definition two_tracers : copts :=
  mk_copts false ["tracer_2d"; "dye_2d"] true 1 false false 2
    "CrankNicolson" "CrankNicolson" "CrankNicolson" "CrankNicolson" false true "CrankNicolson".

Example ex_types : known_types two_tracers. Proof. unfold known_types; cbn; tauto. Qed.
Example ex_labels : sensible_labels two_tracers.
Proof.
  split.
  - cbn. constructor; [intros [H|[]]; discriminate|]. constructor; [intros []|constructor].
  - intros s [<-|[<-|[]]] H; cbn in H; repeat (destruct H as [H|H]; [discriminate|]); destruct H.
Qed.
Example ex_limitable : limitable two_tracers.
Proof. intros _ _. split; [cbn; lia|]. intros s [<-|[<-|[]]]; reflexivity. Qed.
Example ex_picard : picard_ok two_tracers. Proof. intros _ _. reflexivity. Qed.

Example ex_step : forall ts t, create_timestepper two_tracers = Ok [] ts ->
  step two_tracers ts t
  = Ok [EAdvance CSwe t;
        EPicard (CTracer "tracer_2d") t true false; ELimit "tracer_2d";
        EPicard (CTracer "dye_2d") t true false; ELimit "dye_2d";
        EPicard (CTracer "tracer_2d") t false true; ELimit "tracer_2d";
        EPicard (CTracer "dye_2d") t false true; ELimit "dye_2d"] tt.
Proof.
  intros ts t H.
  rewrite (C55_step_order two_tracers ts t ex_types ex_labels ex_limitable ex_picard); try exact H; try reflexivity.
  - cbn; lia.
  - split; reflexivity.
Qed.

Example ex_create : exists ts, create_timestepper two_tracers = Ok [] ts.
Proof. eexists. vm_compute. reflexivity. Qed.

(** Sediment with a moving bed. *)
Definition bed : copts :=
  mk_copts false [] true 1 true true 1
    "CrankNicolson" "CrankNicolson" "CrankNicolson" "CrankNicolson" false true "CrankNicolson".
Example ex_bed : forall ts t, create_timestepper bed = Ok [] ts ->
  step bed ts t = Ok [EAdvance CSwe t; ESedModel; EAdvance CSediment t; ELimit "sediment_2d"; EAdvance CExner t] tt.
Proof. intros ts t H. vm_compute in H. injection H as <-. reflexivity. Qed.

(* ------------------------------------------------------------------ *)
(** * What fails *)

(** tracer_only without any tracer still advances shallow water. *)
Theorem C55_tracer_only_refuted :
  exists o ts, co_tracer_only o = true /\ create_timestepper o = Ok [] ts /\
    forall t, step o ts t = Ok [EAdvance CSwe t] tt.
Proof.
  exists (mk_copts true [] true 1 false false 1 "CrankNicolson" "CrankNicolson" "CrankNicolson"
            "CrankNicolson" false true "CrankNicolson").
  eexists. split; [reflexivity|split; [vm_compute; reflexivity|]]. intro t. reflexivity.
Qed.

Definition labelled (s : string) : copts :=
  mk_copts false [s] false 1 false false 1 "CrankNicolson" "CrankNicolson" "CrankNicolson"
    "CrankNicolson" false true "CrankNicolson".

(** A tracer labelled 'swe2d' takes the place of the shallow water integrator: the
    tracer is advanced twice, shallow water never. *)
Theorem C55_label_swe2d_refuted :
  exists ts, create_timestepper (labelled "swe2d") = Ok [] ts /\
    forall t, step (labelled "swe2d") ts t
              = Ok [EAdvance (CTracer "swe2d") t; EAdvance (CTracer "swe2d") t] tt.
Proof. eexists. split; [vm_compute; reflexivity|]. intro t. reflexivity. Qed.

(** A tracer labelled 'sw' takes the place of the shallow water equation. *)
Theorem C55_label_sw_refuted :
  exists ts, create_timestepper (labelled "sw") = Ok [] ts /\
    forall t, step (labelled "sw") ts t
              = Ok [EAdvance (CTracer "sw") t; EAdvance (CTracer "sw") t] tt.
Proof. eexists. split; [vm_compute; reflexivity|]. intro t. reflexivity. Qed.

(** The limiter is on by default; for degree 0 there is none, and every step of a
    run with tracers raises after advancing shallow water and the first tracer. *)
Theorem C55_limiter_degree0_refuted : forall o d t s l,
  holds o d -> co_systems o = (s :: l) -> co_limiter o = true -> co_degree o = 0%nat ->
  co_picard o = 1%nat -> co_tracer_only o = false ->
  has_comma s = false ->
  advance o d t = Err [EAdvance CSwe t; EAdvance (CTracer s) t] (AttributeError "apply").
Proof.
  intros o d t s l (H1 & H2 & _) Hs Hl Hd Hp Ht Hc. unfold advance. rewrite Hp. cbn [Nat.ltb Nat.leb].
  unfold advance_swe. rewrite Ht. rewrite (advance_one_ok _ _ _ _ _ (H1 Ht)). rewrite Hs. cbn [each].
  rewrite (advance_one_ok d s _ _ t (H2 s ltac:(rewrite Hs; left; reflexivity))).
  unfold limit_tracer, has_limiter. rewrite Hl, Hc, Hd. rewrite !andb_false_r. reflexivity.
Qed.

(** The same happens with a mixed tracer system whatever the degree. *)
Theorem C55_limiter_mixed_refuted : forall o d t s l,
  holds o d -> co_systems o = (s :: l) -> co_limiter o = true -> has_comma s = true ->
  co_picard o = 1%nat -> co_tracer_only o = false ->
  advance o d t = Err [EAdvance CSwe t; EAdvance (CTracer s) t] NotImplemented.
Proof.
  intros o d t s l (H1 & H2 & _) Hs Hl Hc Hp Ht. unfold advance. rewrite Hp. cbn [Nat.ltb Nat.leb].
  unfold advance_swe. rewrite Ht. rewrite (advance_one_ok _ _ _ _ _ (H1 Ht)). rewrite Hs. cbn [each].
  rewrite (advance_one_ok d s _ _ t (H2 s ltac:(rewrite Hs; left; reflexivity))).
  unfold limit_tracer. rewrite Hl, Hc. reflexivity.
Qed.

(** Picard iterations with another tracer integrator are refused only after shallow
    water has been advanced. *)
Theorem C55_picard_unsupported_refuted : forall o d t s l,
  holds o d -> co_systems o = (s :: l) -> co_tracer_type o <> "CrankNicolson" ->
  (1 < co_picard o)%nat -> co_tracer_only o = false ->
  advance o d t = Err [EAdvance CSwe t] NotImplemented.
Proof.
  intros o d t s l (H1 & H2 & _) Hs Hc Hp Ht. unfold advance.
  assert (L : Nat.ltb 1 (co_picard o) = true) by (apply Nat.ltb_lt; exact Hp). rewrite L.
  unfold advance_picard, advance_swe. rewrite Ht. rewrite (advance_one_ok _ _ _ _ _ (H1 Ht)).
  destruct (co_picard o) as [|n]; [lia|]. cbn [seq each]. rewrite Hs. cbn [each].
  unfold picard_one at 1, comp_of at 1. rewrite (H2 s ltac:(rewrite Hs; left; reflexivity)).
  rewrite bind_ret. cbn [st_type]. apply String.eqb_neq in Hc. rewrite Hc. reflexivity.
Qed.

(* ------------------------------------------------------------------ *)
(** * The non-hydrostatic step *)

Section NonHydrostatic.
(** What the components do to the velocity [U], the elevation [E] and the
    pressure/vertical velocity [P]; [u_adv] is one whole shallow water step (or
    stage [i]), [fs] one free surface step (or stage), [q] the pressure solve. *)
Variables U E P : Type.
Variable u_adv : nat -> U * E -> U * E.
Variable fs : nat -> U -> E -> E.
Variable q : bool -> U * E -> P -> U * P.

Record nhs := mk_nhs { n_uv : U; n_elev : E; n_old : E; n_p : P }.

Definition ev_sem (e : ev) (s : nhs) : nhs :=
  match e with
  | EAdvance CSwe t => let (u, e) := u_adv t (n_uv s, n_elev s) in mk_nhs u e (n_old s) (n_p s)
  | EStage CSwe i _ => let (u, e) := u_adv i (n_uv s, n_elev s) in mk_nhs u e (n_old s) (n_p s)
  | EAdvance CFs t => mk_nhs (n_uv s) (fs t (n_uv s) (n_elev s)) (n_old s) (n_p s)
  | EStage CFs i _ => mk_nhs (n_uv s) (fs i (n_uv s) (n_elev s)) (n_old s) (n_p s)
  | EPoisson w => let (u, p) := q w (n_uv s, n_elev s) (n_p s) in mk_nhs u (n_elev s) (n_old s) p
  | ESaveElev => mk_nhs (n_uv s) (n_elev s) (n_elev s) (n_p s)
  | ERestoreElev => mk_nhs (n_uv s) (n_old s) (n_old s) (n_p s)
  | _ => s
  end.
Definition run_ev (l : list ev) (s : nhs) : nhs := fold_left (fun s e => ev_sem e s) l s.

Lemma run_ev_app : forall a b s, run_ev (a ++ b)%list s = run_ev b (run_ev a s).
Proof. intros. unfold run_ev. apply fold_left_app. Qed.

Definition nh_holds (o : copts) (d : list (string * stepper)) : Prop :=
  dict_get d "swe2d" = Some (mk_st CSwe (co_swe_type o)) /\
  dict_get d "fs2d" = Some (mk_st CFs (co_fs_type o)).

(** Serial stepping: the new elevation is one free surface step from the elevation
    at the beginning of the step with the corrected velocity; the elevation the
    hydrostatic step produced is only used by the pressure solve. *)
Theorem C55_nonhydrostatic_serial : forall o d multi t s,
  nh_holds o d -> co_nh_fs o = true ->
  let (u1, e1) := u_adv t (n_uv s, n_elev s) in
  let (u2, p2) := q true (u1, e1) (n_p s) in
  exists l, nh_advance o d true multi t = Ok l tt /\
    run_ev l s = mk_nhs u2 (fs t u2 (n_elev s)) (n_elev s) p2.
Proof.
  intros o d multi t s (H1 & H2) Hf.
  destruct (u_adv t (n_uv s, n_elev s)) as [u1 e1] eqn:E1.
  destruct (q true (u1, e1) (n_p s)) as [u2 p2] eqn:E2.
  unfold nh_advance. rewrite Hf.
  rewrite (advance_one_ok _ _ _ _ t H1), (advance_one_ok _ _ _ _ t H2).
  destruct (String.eqb (co_swe_type o) "SSPIMEX"); cbn; eexists; (split; [reflexivity|]);
  unfold run_ev; cbn [app fold_left ev_sem n_uv n_elev n_old n_p];
  rewrite E1; cbn [n_uv n_elev n_old n_p]; rewrite E2; reflexivity.
Qed.

(** The stage elevations of the multi-stage scheme. *)
Fixpoint stages (n i : nat) (last : nat) (s : U * E * P) : U * E * P :=
  match n with
  | O => s
  | S n' =>
      let '(u, e, p) := s in
      let (u1, e1) := u_adv i (u, e) in
      let (u2, p2) := q (Nat.eqb i last) (u1, e1) p in
      stages n' (S i) last (u2, fs i u2 e, p2)
  end.

Theorem C55_nonhydrostatic_stages : forall o d t n s,
  nh_holds o d -> co_nh_fs o = true -> n_stages (co_swe_type o) = Some n ->
  exists l, nh_advance o d false true t = Ok l tt /\
    (n_uv (run_ev l s), n_elev (run_ev l s), n_p (run_ev l s))
    = stages n 0 (n - 1) (n_uv s, n_elev s, n_p s).
Proof.
  intros o d t n s (H1 & H2) Hf Hn. unfold nh_advance. rewrite Hf.
  unfold comp_of at 1. rewrite H1. cbn [bind ret emit st_type st_eq].
  rewrite Hn.
  match goal with |- context [ each (seq 0 n) ?f ] => set (body := f) end.
  assert (Hb : forall i, body i = Ok [EStage CSwe i t; EPoisson (Nat.eqb i (n - 1)); ERestoreElev;
                                      EStage CFs i t; ESaveElev] tt).
  { intro i. unfold body. unfold comp_of. rewrite H2. reflexivity. }
  assert (G : forall m i s, n_old s = n_elev s ->
    exists l, each (seq i m) body = Ok l tt /\
      (n_uv (run_ev l s), n_elev (run_ev l s), n_p (run_ev l s))
      = stages m i (n - 1) (n_uv s, n_elev s, n_p s)).
  { induction m as [|m IH]; intros i s0 Hs.
    - exists []. split; reflexivity.
    - cbn [seq each stages].
      destruct (u_adv i (n_uv s0, n_elev s0)) as [u1 e1] eqn:E1.
      destruct (q (Nat.eqb i (n - 1)) (u1, e1) (n_p s0)) as [u2 p2] eqn:E2.
      set (s1 := mk_nhs u2 (fs i u2 (n_elev s0)) (fs i u2 (n_elev s0)) p2).
      destruct (IH (S i) s1 eq_refl) as (l & Hl & Hr).
      rewrite Hb. cbn [bind]. rewrite Hl. eexists. split; [reflexivity|].
      rewrite run_ev_app.
      match goal with |- context [run_ev l ?x] => assert (X : x = s1) end.
      { unfold run_ev. cbn [app fold_left ev_sem n_uv n_elev n_old n_p]. rewrite E1.
        cbn [n_uv n_elev n_old n_p]. rewrite E2. cbn [n_uv n_elev n_old n_p]. rewrite Hs. reflexivity. }
      rewrite X, Hr. reflexivity. }
  destruct (G n 0%nat (mk_nhs (n_uv s) (n_elev s) (n_elev s) (n_p s)) eq_refl) as (l & Hl & Hr).
  rewrite Hl. eexists. split; [reflexivity|].
  exact Hr.
Qed.
End NonHydrostatic.

(** A set-up that can be created. *)
Definition nh_opts : copts :=
  mk_copts false [] true 1 false false 1 "SSPRK33" "CrankNicolson" "CrankNicolson"
    "CrankNicolson" true true "SSPRK33".
Example ex_nh : exists d, create_timestepper nh_opts = Ok [] (TNonHydro d false true) /\ nh_holds nh_opts d.
Proof. eexists. split; [vm_compute; reflexivity|split; reflexivity]. Qed.

Print Assumptions C55_nonhydrostatic_serial.
Print Assumptions C55_nonhydrostatic_stages.
