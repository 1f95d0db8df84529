(** C55: the order of a coupled 2D step. *)
From Coq Require Import String List Bool Arith Lia.
From Verif Require Import Exporter_Model Callback_Proofs Coupled2d_Model Coupled2d_Spec.
Import ListNotations.
Open Scope string_scope.

(* ------------------------------------------------------------------ *)
(** * The monad *)
Lemma bind_ok : forall A B l (a : A) (f : A -> res B) l' b,
  f a = Ok l' b -> bind (Ok l a) f = Ok (l ++ l') b.
Proof. intros. cbn. rewrite H. reflexivity. Qed.

Lemma bind_ret : forall A B (a : A) (f : A -> res B), bind (ret a) f = f a.
Proof. intros. unfold ret. cbn. destruct (f a); reflexivity. Qed.

Lemma each_ok : forall A (l : list A) f g,
  (forall x, In x l -> f x = Ok (g x) tt) -> each l f = Ok (flat_map g l) tt.
Proof.
  intros A l f g. induction l as [|x l IH]; intro H; [reflexivity|].
  cbn [each flat_map]. rewrite (H x (or_introl eq_refl)). apply bind_ok.
  apply IH. intros y Hy. apply H. right; exact Hy.
Qed.

Lemma bind_err : forall A B l e (f : A -> res B), bind (Err l e) f = Err l e.
Proof. reflexivity. Qed.

(* ------------------------------------------------------------------ *)
(** * Dictionaries *)
Lemma fold_set_get : forall A (f : string -> A) (l : list string) (d : list (string * A)) k,
  dict_get (fold_left (fun d s => dict_set d s (f s)) l d) k
  = if existsb (String.eqb k) l then Some (f k) else dict_get d k.
Proof.
  intros A f l. induction l as [|s l IH]; intros d k; [reflexivity|].
  cbn [fold_left existsb]. rewrite IH, dict_get_set.
  destruct (String.eqb_spec k s) as [->|N].
  - destruct (existsb (String.eqb s) l); reflexivity.
  - reflexivity.
Qed.

Lemma existsb_in_str : forall k l, existsb (String.eqb k) l = true <-> In k l.
Proof.
  intros. rewrite existsb_exists. split.
  - intros (x & Hx & E). apply String.eqb_eq in E. subst. exact Hx.
  - intro H. exists k. split; [exact H|apply String.eqb_refl].
Qed.

Lemma lookup_known : forall ty, In ty stepper_types -> lookup_type ty = ret ty.
Proof. intros ty H. unfold lookup_type. apply existsb_in_str in H. rewrite H. reflexivity. Qed.

Lemma tracer_steppers_ok : forall i eqs ty l d,
  in_tracer i = Some ty ->
  (forall s, In s l -> dict_get eqs s = Some (CTracer s)) ->
  tracer_steppers i eqs l d
  = Ok [] (fold_left (fun d s => dict_set d s (mk_st (CTracer s) ty)) l d).
Proof.
  intros i eqs ty l. induction l as [|s l IH]; intros d Hi He; [reflexivity|].
  cbn [tracer_steppers fold_left]. rewrite Hi. unfold call. rewrite bind_ret.
  unfold get_eq. rewrite (He s (or_introl eq_refl)), bind_ret.
  apply IH; [exact Hi|]. intros; apply He; right; assumption.
Qed.

Lemma eqs_tracer : forall o s, sensible_labels o -> In s (co_systems o) ->
  dict_get (create_equations o) s = Some (CTracer s).
Proof.
  intros o s (_ & Hr) Hs. pose proof (Hr s Hs) as N. unfold create_equations.
  assert (E : dict_get (fold_left (fun d s => dict_set d s (CTracer s)) (co_systems o)
                 (dict_set [] "sw" CSwe)) s = Some (CTracer s)).
  { rewrite (fold_set_get comp CTracer). apply existsb_in_str in Hs. rewrite Hs. reflexivity. }
  assert (H : forall k, In k reserved -> String.eqb s k = false).
  { intros k Hk. apply String.eqb_neq. intros ->. exact (N Hk). }
  destruct (co_susp o), (co_exner o), (co_nh o); rewrite ?dict_get_set, ?H by (cbn; tauto); exact E.
Qed.

Lemma eqs_sw : forall o, sensible_labels o -> dict_get (create_equations o) "sw" = Some CSwe.
Proof.
  intros o (_ & Hr). unfold create_equations.
  assert (N : existsb (String.eqb "sw") (co_systems o) = false).
  { apply not_true_is_false. rewrite existsb_in_str. intro H. apply (Hr _ H). cbn. tauto. }
  assert (E : dict_get (fold_left (fun d s => dict_set d s (CTracer s)) (co_systems o)
                 (dict_set [] "sw" CSwe)) "sw" = Some CSwe).
  { rewrite (fold_set_get comp CTracer), N. reflexivity. }
  destruct (co_susp o), (co_exner o), (co_nh o); rewrite ?dict_get_set; exact E.
Qed.

Lemma eqs_sediment : forall o, co_susp o = true -> dict_get (create_equations o) "sediment" = Some CSediment.
Proof.
  intros o H. unfold create_equations. rewrite H.
  destruct (co_exner o), (co_nh o); rewrite ?dict_get_set; reflexivity.
Qed.
Lemma eqs_exner : forall o, co_exner o = true -> dict_get (create_equations o) "exner" = Some CExner.
Proof.
  intros o H. unfold create_equations. rewrite H.
  destruct (co_nh o); rewrite ?dict_get_set; reflexivity.
Qed.

(** The dictionary the coupled integrator should hold. *)
Definition holds (o : copts) (d : list (string * stepper)) : Prop :=
  (co_tracer_only o = false -> dict_get d "swe2d" = Some (mk_st CSwe (co_swe_type o))) /\
  (forall s, In s (co_systems o) -> dict_get d s = Some (mk_st (CTracer s) (co_tracer_type o))) /\
  (co_susp o = true -> dict_get d "sediment" = Some (mk_st CSediment (co_sed_type o))) /\
  (co_exner o = true -> dict_get d "exner" = Some (mk_st CExner (co_exner_type o))).

Lemma create_integrators_holds : forall o i,
  sensible_labels o ->
  (co_tracer_only o = false -> in_swe i = Some (co_swe_type o)) ->
  (solve_tracer o = true -> in_tracer i = Some (co_tracer_type o)) ->
  (co_susp o = true -> in_sed i = Some (co_sed_type o)) ->
  (co_exner o = true -> in_exner i = Some (co_exner_type o)) ->
  exists d, create_integrators o i (create_equations o) = Ok [] d /\ holds o d.
Proof.
  intros o i HL H1 H2 H3 H4. unfold create_integrators.
  set (eqs := create_equations o).
  pose (eqs' := if String.eqb (co_swe_type o) "PressureProjectionPicard" then dict_set eqs "mom" CMom else eqs).
  set (d0 := if co_tracer_only o then [] else dict_set [] "swe2d" (mk_st CSwe (co_swe_type o))).
  assert (S1 : (if co_tracer_only o then ret (eqs, [])
        else bind (call (in_swe i)) (fun ty =>
             bind (get_eq eqs "sw") (fun c =>
             ret (if String.eqb (co_swe_type o) "PressureProjectionPicard"
                  then dict_set eqs "mom" CMom else eqs,
                  dict_set [] "swe2d" (mk_st c ty)))))
     = ret (if co_tracer_only o then eqs else eqs', d0)).
  { unfold d0. destruct (co_tracer_only o); [reflexivity|]. rewrite (H1 eq_refl). unfold call.
    rewrite bind_ret. unfold get_eq, eqs. rewrite (eqs_sw o HL), bind_ret. reflexivity. }
  rewrite S1, bind_ret. clear S1. cbn [fst snd].
  set (eq1 := if co_tracer_only o then eqs else eqs').
  assert (Hneq : forall s k, In s (co_systems o) -> In k reserved -> String.eqb s k = false).
  { intros s k Hs Hk. apply String.eqb_neq. intros ->. destruct HL as (_ & HL). exact (HL _ Hs Hk). }
  assert (Q1 : forall s, In s (co_systems o) -> dict_get eq1 s = Some (CTracer s)).
  { intros s Hs. unfold eq1, eqs'. destruct (co_tracer_only o); [apply eqs_tracer; assumption|].
    destruct (String.eqb (co_swe_type o) "PressureProjectionPicard").
    - rewrite dict_get_set, Hneq by (try assumption; cbn; tauto). apply eqs_tracer; assumption.
    - apply eqs_tracer; assumption. }
  assert (Qs : co_susp o = true -> dict_get eq1 "sediment" = Some CSediment).
  { intro Hs. unfold eq1, eqs'. destruct (co_tracer_only o); [apply eqs_sediment; assumption|].
    destruct (String.eqb (co_swe_type o) "PressureProjectionPicard"); [rewrite dict_get_set|];
    apply eqs_sediment; assumption. }
  assert (Qe : co_exner o = true -> dict_get eq1 "exner" = Some CExner).
  { intro Hs. unfold eq1, eqs'. destruct (co_tracer_only o); [apply eqs_exner; assumption|].
    destruct (String.eqb (co_swe_type o) "PressureProjectionPicard"); [rewrite dict_get_set|];
    apply eqs_exner; assumption. }
  assert (S2 : tracer_steppers i eq1 (co_systems o) d0 = Ok []
      (fold_left (fun d s => dict_set d s (mk_st (CTracer s) (co_tracer_type o))) (co_systems o) d0)).
  {
    destruct (co_systems o) as [|s l] eqn:Es; [reflexivity|]. 
    apply tracer_steppers_ok; [apply H2; unfold solve_tracer; rewrite Es; reflexivity|exact Q1]. }
  rewrite S2. clear S2.
  set (d1 := fold_left _ (co_systems o) d0).
  assert (G : forall k, dict_get d1 k = if existsb (String.eqb k) (co_systems o)
     then Some (mk_st (CTracer k) (co_tracer_type o)) else dict_get d0 k).
  { intro k. unfold d1. apply (fold_set_get stepper (fun s => mk_st (CTracer s) (co_tracer_type o))). }
  assert (Nr : forall k, In k reserved -> existsb (String.eqb k) (co_systems o) = false).
  { intros k Hk. apply not_true_is_false. rewrite existsb_in_str. intro H. destruct HL as (_ & HL). exact (HL _ H Hk). }
  set (d2 := if co_susp o then dict_set d1 "sediment" (mk_st CSediment (co_sed_type o)) else d1).
  set (d3 := if co_exner o then dict_set d2 "exner" (mk_st CExner (co_exner_type o)) else d2).
  exists d3. split.
  - change (Ok (@nil ev) d1) with (ret d1). rewrite bind_ret.
    assert (S3 : (if co_susp o
        then bind (call_sed (in_sed i)) (fun ty =>
             bind (get_eq eq1 "sediment") (fun c => ret (dict_set d1 "sediment" (mk_st c ty))))
        else ret d1) = ret d2).
    { unfold d2. destruct (co_susp o); [|reflexivity]. rewrite (H3 eq_refl). unfold call_sed, get_eq.
      rewrite bind_ret, (Qs eq_refl), bind_ret. reflexivity. }
    rewrite S3, bind_ret. unfold d3. destruct (co_exner o); [|reflexivity]. rewrite (H4 eq_refl).
    unfold call, get_eq. rewrite bind_ret, (Qe eq_refl), bind_ret. reflexivity.
  - unfold holds. split; [|split; [|split]].
    + intro Ht. unfold d3, d2. destruct (co_exner o), (co_susp o); rewrite ?dict_get_set; cbn;
      rewrite G, Nr by (cbn; tauto); unfold d0; rewrite Ht; reflexivity.
    + intros s Hs. assert (Ge : dict_get d1 s = Some (mk_st (CTracer s) (co_tracer_type o))).
      { rewrite G. apply existsb_in_str in Hs. rewrite Hs. reflexivity. }
      unfold d3, d2. destruct (co_exner o), (co_susp o);
      rewrite ?dict_get_set, ?Hneq by (try assumption; cbn; tauto); exact Ge.
    + intro Hs. unfold d3, d2. rewrite Hs. destruct (co_exner o); rewrite ?dict_get_set; reflexivity.
    + intro Hs. unfold d3, d2. rewrite Hs. rewrite dict_get_set. reflexivity.
Qed.

(* ------------------------------------------------------------------ *)
(** * Creation *)

(** The combinations the solver can create. *)
Theorem C55_created : forall o,
  known_types o -> sensible_labels o -> co_nh o = false -> coupled o = true ->
  (solve_tracer o = true -> co_susp o = false /\ co_exner o = false) ->
  exists d, create_timestepper o = Ok [] (TCoupled d) /\ holds o d.
Proof.
  intros o (K1 & K2 & K3 & K4 & _) HL Hn Hc Hx. unfold create_timestepper. rewrite Hn.
  unfold coupled in Hc. destruct (solve_tracer o) eqn:Et.
  - destruct (Hx eq_refl) as (Es & Ee).
    rewrite (lookup_known _ K1), bind_ret, (lookup_known _ K2), bind_ret.
    unfold general_init. rewrite Et, Es, Ee. cbn [dict_get String.eqb].
    set (i := mk_int (if co_tracer_only o then None else Some (co_swe_type o)) (Some (co_tracer_type o)) None None).
    destruct (create_integrators_holds o i HL) as (d & Hd & Hh).
    { intro Ht. unfold i. cbn. rewrite Ht. reflexivity. }
    { reflexivity. }
    { rewrite Es. discriminate. }
    { rewrite Ee. discriminate. }
    exists d. split; [|exact Hh]. unfold i in Hd.
    destruct (co_tracer_only o); cbn; rewrite ?bind_ret; unfold print_names; rewrite Es; cbn; rewrite Hd; reflexivity.
  - cbn [orb] in Hc. rewrite Hc.
    rewrite (lookup_known _ K1), bind_ret, (lookup_known _ K3), bind_ret, (lookup_known _ K4), bind_ret.
    unfold general_init. rewrite Et.
    set (i := mk_int (if co_tracer_only o then None else Some (co_swe_type o)) None
                (if co_susp o then Some (co_sed_type o) else None)
                (if co_exner o then Some (co_exner_type o) else None)).
    destruct (create_integrators_holds o i HL) as (d & Hd & Hh).
    { intro Ht. unfold i. cbn. rewrite Ht. reflexivity. }
    { rewrite Et. discriminate. }
    { intro Ht. unfold i. cbn. rewrite Ht. reflexivity. }
    { intro Ht. unfold i. cbn. rewrite Ht. reflexivity. }
    exists d. split; [|exact Hh]. unfold i in Hd.
    destruct (co_tracer_only o), (co_susp o) eqn:Es, (co_exner o) eqn:Ee; cbn;
    unfold print_names; rewrite ?Es; cbn; rewrite Hd; reflexivity.
Qed.

(* ------------------------------------------------------------------ *)
(** * The step *)
Lemma advance_one_ok : forall d k c ty t,
  dict_get d k = Some (mk_st c ty) -> advance_one d k t = Ok [EAdvance c t] tt.
Proof. intros. unfold advance_one, comp_of. rewrite H, bind_ret. reflexivity. Qed.

Lemma limit_ok : forall o s, limitable o -> In s (co_systems o) -> limit_tracer o s = Ok (limit o s) tt.
Proof.
  intros o s HL Hs. unfold limit_tracer, limit. destruct (co_limiter o) eqn:El; [|reflexivity].
  assert (St : solve_tracer o = true) by (unfold solve_tracer; destruct (co_systems o); [destruct Hs|reflexivity]).
  destruct (HL El) as (Hd & Hc); [unfold coupled; rewrite St; reflexivity|].
  rewrite (Hc s Hs). unfold has_limiter. rewrite St, El. cbn [orb andb].
  apply Nat.ltb_lt in Hd. rewrite Hd. reflexivity.
Qed.

Lemma sediment_ok : forall o d t, holds o d -> limitable o ->
  advance_sediment o d t
  = Ok ((if co_susp o || co_exner o then [ESedModel] else [])
        ++ (if co_susp o then EAdvance CSediment t :: limit o "sediment_2d" else [])
        ++ (if co_exner o then [EAdvance CExner t] else [])) tt.
Proof.
  intros o d t (_ & _ & H3 & H4) HL. unfold advance_sediment.
  assert (A : (if co_exner o then advance_one d "exner" t else skip)
              = Ok (if co_exner o then [EAdvance CExner t] else []) tt).
  { destruct (co_exner o); [|reflexivity]. apply (advance_one_ok _ _ _ _ _ (H4 eq_refl)). }
  assert (B : (if co_susp o then
     advance_one d "sediment" t ;;
     (if co_limiter o then
        if has_limiter o then emit (ELimit "sediment_2d") else raise (AttributeError "apply")
      else skip)
   else skip) = Ok (if co_susp o then EAdvance CSediment t :: limit o "sediment_2d" else []) tt).
  { destruct (co_susp o) eqn:Es; [|reflexivity].
    rewrite (advance_one_ok _ _ _ _ _ (H3 eq_refl)).
    change (EAdvance CSediment t :: limit o "sediment_2d") with ([EAdvance CSediment t] ++ limit o "sediment_2d")%list.
    apply bind_ok. unfold limit. destruct (co_limiter o) eqn:El; [|reflexivity].
    destruct (HL El) as (Hd & _).
    { unfold coupled. rewrite Es. rewrite orb_true_r. reflexivity. }
    unfold has_limiter. rewrite Es, El, orb_true_r. cbn [andb]. apply Nat.ltb_lt in Hd. rewrite Hd. reflexivity. }
  rewrite B, A.
  assert (C : (if co_susp o || co_exner o then emit ESedModel else skip)
              = Ok (if co_susp o || co_exner o then [ESedModel] else []) tt)
    by (destruct (co_susp o || co_exner o); reflexivity).
  rewrite C. apply bind_ok. apply bind_ok. reflexivity.
Qed.

Lemma advance_expected : forall o d t,
  holds o d -> limitable o -> picard_ok o -> (0 < co_picard o)%nat ->
  advance o d t = Ok (expected o t) tt.
Proof.
  intros o d t Hh HL Hp H0. pose proof Hh as (H1 & H2 & _). unfold advance, expected.
  assert (S1 : advance_swe o d t = Ok (if co_tracer_only o then [] else [EAdvance CSwe t]) tt).
  { unfold advance_swe. destruct (co_tracer_only o); [reflexivity|].
    apply (advance_one_ok _ _ _ _ _ (H1 eq_refl)). }
  destruct (Nat.ltb_spec 1 (co_picard o)) as [G|G].
  - unfold advance_picard. rewrite S1. apply bind_ok.
    rewrite (each_ok _ (seq 0 (co_picard o)) _ (fun i =>
      flat_map (fun s => EPicard (CTracer s) t (Nat.eqb i 0) (Nat.eqb (S i) (co_picard o)) :: limit o s)
        (co_systems o))).
    + apply bind_ok. apply sediment_ok; assumption.
    + intros i Hi. apply in_seq in Hi.
      apply (each_ok _ (co_systems o) _ (fun s => EPicard (CTracer s) t (Nat.eqb i 0) (Nat.eqb (S i) (co_picard o)) :: limit o s)).
      intros s Hs. unfold picard_one, comp_of. rewrite (H2 s Hs), bind_ret. cbn [st_type st_eq].
      assert (St : solve_tracer o = true) by (unfold solve_tracer; destruct (co_systems o); [destruct Hs|reflexivity]).
      rewrite (Hp G St). cbn [String.eqb Ascii.eqb Bool.eqb].
      assert (E : Nat.eqb i (co_picard o - 1) = Nat.eqb (S i) (co_picard o)).
      { destruct (Nat.eqb_spec i (co_picard o - 1)), (Nat.eqb_spec (S i) (co_picard o)); try reflexivity; lia. }
      rewrite E.
      change (EPicard (CTracer s) t (Nat.eqb i 0) (Nat.eqb (S i) (co_picard o)) :: limit o s)
        with ([EPicard (CTracer s) t (Nat.eqb i 0) (Nat.eqb (S i) (co_picard o))] ++ limit o s)%list.
      apply bind_ok. apply limit_ok; assumption.
  - rewrite S1. apply bind_ok.
    rewrite (each_ok _ (co_systems o) _ (fun s => EAdvance (CTracer s) t :: limit o s)).
    + apply bind_ok. apply sediment_ok; assumption.
    + intros s Hs. rewrite (advance_one_ok _ _ _ _ _ (H2 s Hs)).
      change (EAdvance (CTracer s) t :: limit o s) with ([EAdvance (CTracer s) t] ++ limit o s)%list.
      apply bind_ok. apply limit_ok; assumption.
Qed.

(** Every step of every hydrostatic set-up the solver accepts does exactly what
    the specification lists, in that order. *)
Theorem C55_step_order : forall o ts t,
  known_types o -> sensible_labels o -> limitable o -> picard_ok o -> (0 < co_picard o)%nat ->
  co_nh o = false -> (co_tracer_only o = true -> coupled o = true) ->
  (solve_tracer o = true -> co_susp o = false /\ co_exner o = false) ->
  create_timestepper o = Ok [] ts -> step o ts t = Ok (expected o t) tt.
Proof.
  intros o ts t HK HL Hm Hp H0 Hn Ht Hx Hc.
  destruct (coupled o) eqn:Ec.
  - destruct (C55_created o HK HL Hn Ec Hx) as (d & Hd & Hh). rewrite Hd in Hc. injection Hc as <-.
    apply advance_expected; assumption.
  - unfold coupled in Ec. apply orb_false_iff in Ec. destruct Ec as (Ec & Ee).
    apply orb_false_iff in Ec. destruct Ec as (Et & Es).
    destruct HK as (K1 & _). unfold create_timestepper in Hc. rewrite Hn, Et, Es, Ee in Hc. cbn [orb] in Hc.
    rewrite (lookup_known _ K1), bind_ret in Hc. unfold get_eq in Hc. rewrite (eqs_sw o HL), bind_ret in Hc.
    injection Hc as <-. unfold expected. rewrite Es, Ee.
    assert (Hs : co_systems o = []) by (unfold solve_tracer in Et; destruct (co_systems o); [reflexivity|discriminate]).
    rewrite Hs. destruct (co_tracer_only o); [specialize (Ht eq_refl); discriminate|].
    cbn [orb app flat_map step]. 
    assert (F : flat_map (fun _ : nat => @nil ev) (seq 0 (co_picard o)) = []).
    { induction (seq 0 (co_picard o)); [reflexivity|assumption]. }
    rewrite F. destruct (Nat.ltb 1 (co_picard o)); reflexivity.
Qed.

(* ------------------------------------------------------------------ *)
(** * Consequences for single components *)
Lemma filter_flat_map : forall A B (p : B -> bool) (f : A -> list B) l,
  filter p (flat_map f l) = flat_map (fun x => filter p (f x)) l.
Proof. intros. induction l as [|x l IH]; [reflexivity|]. cbn. rewrite filter_app, IH. reflexivity. Qed.

Lemma flat_map_nil : forall A B (f : A -> list B) l, (forall x, f x = []) -> flat_map f l = [].
Proof. intros A B f l H. induction l as [|x l IH]; [reflexivity|]. cbn. rewrite H. exact IH. Qed.

Lemma filter_limit : forall c o s, filter (drives c) (limit o s) = [].
Proof. intros. unfold limit. destruct (co_limiter o); reflexivity. Qed.

Lemma flat_map_one : forall A (s : string) (l : list string) (g : string -> list A),
  NoDup l -> In s l ->
  flat_map (fun x => if String.eqb s x then g x else []) l = g s.
Proof.
  intros A s l g Hn. induction Hn as [|x l Hx Hn IH]; intro H; [destruct H|].
  cbn [flat_map]. destruct (String.eqb_spec s x) as [->|N].
  - assert (E : flat_map (fun y => if String.eqb x y then g y else []) l = []).
    { clear - Hx. induction l as [|y l IH]; [reflexivity|]. cbn.
      destruct (String.eqb_spec x y) as [->|]; [exfalso; apply Hx; left; reflexivity|].
      apply IH. intro H; apply Hx; right; exact H. }
    rewrite E. apply app_nil_r.
  - destruct H as [->|H]; [contradiction|]. cbn. apply IH, H.
Qed.

(** Each tracer is solved once per step, or once per Picard iteration with the
    start-of-step value taken at the first and the old fields stored at the last. *)
Theorem C55_tracer_solves : forall o t s,
  NoDup (co_systems o) -> In s (co_systems o) ->
  filter (drives (CTracer s)) (expected o t)
  = if Nat.ltb 1 (co_picard o)
    then map (fun i => EPicard (CTracer s) t (Nat.eqb i 0) (Nat.eqb (S i) (co_picard o))) (seq 0 (co_picard o))
    else [EAdvance (CTracer s) t].
Proof.
  intros o t s Hn Hs. unfold expected. rewrite !filter_app.
  assert (A : filter (drives (CTracer s)) (if co_tracer_only o then [] else [EAdvance CSwe t]) = [])
    by (destruct (co_tracer_only o); reflexivity).
  assert (B : filter (drives (CTracer s)) (if co_susp o || co_exner o then [ESedModel] else []) = [])
    by (destruct (co_susp o || co_exner o); reflexivity).
  assert (C : filter (drives (CTracer s)) (if co_susp o then EAdvance CSediment t :: limit o "sediment_2d" else []) = []).
  { destruct (co_susp o); [|reflexivity]. cbn [filter drives comp_eqb]. apply filter_limit. }
  assert (D : filter (drives (CTracer s)) (if co_exner o then [EAdvance CExner t] else []) = [])
    by (destruct (co_exner o); reflexivity).
  rewrite A, B, C, D, !app_nil_r, app_nil_l. clear A B C D.
  destruct (Nat.ltb 1 (co_picard o)).
  - rewrite filter_flat_map. induction (seq 0 (co_picard o)) as [|i l IH]; [reflexivity|].
    cbn [flat_map map]. rewrite IH. f_equal.
    assert (E : filter (drives (CTracer s))
      (flat_map (fun x => EPicard (CTracer x) t (Nat.eqb i 0) (Nat.eqb (S i) (co_picard o)) :: limit o x) (co_systems o))
      = [EPicard (CTracer s) t (Nat.eqb i 0) (Nat.eqb (S i) (co_picard o))]).
    { rewrite filter_flat_map.
      rewrite <- (flat_map_one ev s (co_systems o) (fun x => [EPicard (CTracer x) t (Nat.eqb i 0) (Nat.eqb (S i) (co_picard o))]) Hn Hs).
      apply flat_map_ext. intro x. cbn [filter drives comp_eqb]. rewrite filter_limit.
      destruct (String.eqb s x); reflexivity. }
    rewrite E. reflexivity.
  - rewrite filter_flat_map.
    rewrite <- (flat_map_one ev s (co_systems o) (fun x => [EAdvance (CTracer x) t]) Hn Hs).
    apply flat_map_ext. intro x. cbn [filter drives comp_eqb]. rewrite filter_limit.
    destruct (String.eqb s x); reflexivity.
Qed.

(** Exactly one lagged update and one storing of fields per tracer and step, the
    first and the last of its solves. *)
Theorem C55_picard_flags : forall o t s,
  NoDup (co_systems o) -> In s (co_systems o) -> (1 < co_picard o)%nat ->
  exists mid,
    filter (drives (CTracer s)) (expected o t)
    = EPicard (CTracer s) t true false :: mid ++ [EPicard (CTracer s) t false true] /\
    Forall (eq (EPicard (CTracer s) t false false)) mid /\ List.length mid = (co_picard o - 2)%nat.
Proof.
  intros o t s Hn Hs Hp. rewrite C55_tracer_solves by assumption.
  assert (L : Nat.ltb 1 (co_picard o) = true) by (apply Nat.ltb_lt; exact Hp). rewrite L.
  destruct (co_picard o) as [|[|n]] eqn:Ep; [lia|lia|]. clear L Hp.
  exists (map (fun i => EPicard (CTracer s) t (Nat.eqb i 0) (Nat.eqb (S i) (S (S n)))) (seq 1 n)).
  split; [|split].
  - change (seq 0 (S (S n))) with (0 :: seq 1 (S n))%nat. rewrite map_cons. f_equal.
    assert (E : seq 1 (S n) = (seq 1 n ++ [S n])%list) by (rewrite seq_S; reflexivity).
    rewrite E, map_app. f_equal. cbn [map]. rewrite Nat.eqb_refl. reflexivity.
  - apply Forall_forall. intros e He. apply in_map_iff in He. destruct He as (i & <- & Hi).
    apply in_seq in Hi. f_equal.
    + symmetry. apply Nat.eqb_neq. lia.
    + symmetry. apply Nat.eqb_neq. lia.
  - rewrite map_length, seq_length. lia.
Qed.

(** Shallow water, sediment and bed are advanced once when enabled and never
    otherwise. *)
Theorem C55_once : forall o t,
  filter (drives CSwe) (expected o t) = (if co_tracer_only o then [] else [EAdvance CSwe t]) /\
  filter (drives CSediment) (expected o t) = (if co_susp o then [EAdvance CSediment t] else []) /\
  filter (drives CExner) (expected o t) = (if co_exner o then [EAdvance CExner t] else []).
Proof.
  intros o t.
  assert (T : forall c, (forall s, comp_eqb c (CTracer s) = false) ->
    filter (drives c) (if Nat.ltb 1 (co_picard o)
      then flat_map (fun i =>
             flat_map (fun s => EPicard (CTracer s) t (Nat.eqb i 0) (Nat.eqb (S i) (co_picard o))
                                :: limit o s) (co_systems o))
           (seq 0 (co_picard o))
      else flat_map (fun s => EAdvance (CTracer s) t :: limit o s) (co_systems o)) = []).
  { intros c Hc. destruct (Nat.ltb 1 (co_picard o)); rewrite filter_flat_map; apply flat_map_nil; intro i.
    - rewrite filter_flat_map. apply flat_map_nil. intro s. cbn [filter drives]. rewrite Hc. apply filter_limit.
    - cbn [filter drives]. rewrite Hc. apply filter_limit. }
  unfold expected. rewrite !filter_app, !T by reflexivity.
  split; [|split]; destruct (co_tracer_only o), (co_susp o), (co_exner o);
  cbn [orb filter drives comp_eqb app]; rewrite ?filter_limit; reflexivity.
Qed.

(** Initialisation reaches every component once, in the same order. *)
Theorem C55_initialize : forall o d, holds o d ->
  initialize o d = Ok ((if co_tracer_only o then [] else [EInit CSwe])
    ++ map (fun s => EInit (CTracer s)) (co_systems o)
    ++ (if co_susp o then [EInit CSediment] else [])
    ++ (if co_exner o then [EInit CExner] else [])) tt.
Proof.
  intros o d (H1 & H2 & H3 & H4). unfold initialize.
  assert (I : forall k c ty, dict_get d k = Some (mk_st c ty) -> init_one d k = Ok [EInit c] tt).
  { intros k c ty H. unfold init_one, comp_of. rewrite H, bind_ret. reflexivity. }
  assert (A : (if co_tracer_only o then skip else init_one d "swe2d")
              = Ok (if co_tracer_only o then [] else [EInit CSwe]) tt).
  { destruct (co_tracer_only o); [reflexivity|]. apply (I _ _ _ (H1 eq_refl)). }
  rewrite A. apply bind_ok.
  rewrite (each_ok _ (co_systems o) _ (fun s => [EInit (CTracer s)])).
  2:{ intros s Hs. apply (I _ _ _ (H2 s Hs)). }
  assert (F : flat_map (fun s => [EInit (CTracer s)]) (co_systems o) = map (fun s => EInit (CTracer s)) (co_systems o)).
  { clear. induction (co_systems o) as [|x l IH]; [reflexivity|]. cbn. rewrite IH. reflexivity. }
  rewrite F. apply bind_ok.
  assert (B : (if co_susp o then init_one d "sediment" else skip)
              = Ok (if co_susp o then [EInit CSediment] else []) tt).
  { destruct (co_susp o); [|reflexivity]. apply (I _ _ _ (H3 eq_refl)). }
  rewrite B. apply bind_ok.
  destruct (co_exner o); [|reflexivity]. apply (I _ _ _ (H4 eq_refl)).
Qed.

(** One step passes the same time to every component. *)
Theorem C55_same_time : forall o t e, In e (expected o t) ->
  match e with EAdvance _ t' | EPicard _ t' _ _ => t' = t | _ => True end.
Proof.
  intros o t e H. unfold expected, limit in H.
  repeat (apply in_app_or in H; destruct H as [H|H]).
  - destruct (co_tracer_only o); [destruct H|]. destruct H as [<-|[]]. reflexivity.
  - destruct (Nat.ltb 1 (co_picard o)).
    + apply in_flat_map in H. destruct H as (i & _ & H). apply in_flat_map in H. destruct H as (s & _ & H).
      destruct H as [<-|H]; [reflexivity|]. destruct (co_limiter o); [|destruct H]. destruct H as [<-|[]]. exact I.
    + apply in_flat_map in H. destruct H as (s & _ & H).
      destruct H as [<-|H]; [reflexivity|]. destruct (co_limiter o); [|destruct H]. destruct H as [<-|[]]. exact I.
  - destruct (co_susp o || co_exner o); [|destruct H]. destruct H as [<-|[]]. exact I.
  - destruct (co_susp o); [|destruct H]. destruct H as [<-|H]; [reflexivity|].
    destruct (co_limiter o); [|destruct H]. destruct H as [<-|[]]. exact I.
  - destruct (co_exner o); [|destruct H]. destruct H as [<-|[]]. reflexivity.
Qed.

(* ------------------------------------------------------------------ *)
(** * Combinations that cannot be created *)
Theorem C55_tracers_with_sediment_refuted : forall o,
  known_types o -> co_nh o = false -> solve_tracer o = true ->
  (co_susp o = true -> create_timestepper o = Err [] (KeyError "sediment")) /\
  (co_susp o = false -> co_exner o = true -> create_timestepper o = Err [] (KeyError "exner")).
Proof.
  intros o (K1 & K2 & _) Hn Ht. unfold create_timestepper. rewrite Hn, Ht.
  rewrite (lookup_known _ K1), bind_ret, (lookup_known _ K2), bind_ret. unfold general_init. rewrite Ht.
  split.
  - intro Hs. rewrite Hs. destruct (co_tracer_only o); reflexivity.
  - intros Hs He. rewrite Hs, He. destruct (co_tracer_only o); reflexivity.
Qed.

Lemma nh_tracers_err : forall o i eqs, in_tracer i = None -> co_systems o <> [] ->
  forall d, tracer_steppers i eqs (co_systems o) d = Err [] TypeError.
Proof.
  intros o i eqs Hi Hs d. destruct (co_systems o) as [|s l]; [contradiction|].
  cbn [tracer_steppers]. rewrite Hi. reflexivity.
Qed.

(** The non-hydrostatic solver cannot carry tracers or sediment, ... *)
Theorem C55_nonhydrostatic_alone_refuted : forall o,
  known_types o -> sensible_labels o -> co_nh o = true ->
  solve_tracer o = true \/ co_susp o = true \/ co_exner o = true ->
  exists e, create_timestepper o = Err [] e.
Proof.
  intros o (K1 & _ & _ & _ & K5) HL Hn H. unfold create_timestepper. rewrite Hn.
  rewrite (lookup_known _ K1), bind_ret, (lookup_known _ K5), bind_ret. unfold nh_init, print_names.
  destruct (co_susp o) eqn:Es; [exists (AttributeError "sediment_integrator"); reflexivity|].
  cbn [call_sed in_sed]. unfold skip. rewrite bind_ret. exists TypeError.
  set (i := mk_int (Some (co_swe_type o)) None None None).
  assert (E : create_integrators o i (create_equations o) = Err [] TypeError); [|rewrite E; reflexivity].
  unfold create_integrators.
  set (eqs := create_equations o).
  assert (S1 : exists ed, (if co_tracer_only o then ret (eqs, [])
        else bind (call (in_swe i)) (fun ty =>
             bind (get_eq eqs "sw") (fun c =>
             ret (if String.eqb (co_swe_type o) "PressureProjectionPicard"
                  then dict_set eqs "mom" CMom else eqs,
                  dict_set [] "swe2d" (mk_st c ty))))) = ret ed).
  { destruct (co_tracer_only o); [eexists; reflexivity|]. cbn [call in_swe i]. rewrite bind_ret.
    unfold get_eq, eqs. rewrite (eqs_sw o HL), bind_ret. eexists; reflexivity. }
  destruct S1 as (ed & S1). rewrite S1, bind_ret. clear S1.
  destruct (co_systems o) as [|s l] eqn:El.
  - assert (Ee : co_exner o = true).
    { unfold solve_tracer in H. rewrite El in H. destruct H as [H|[H|H]]; [discriminate|discriminate|exact H]. }
    cbn [tracer_steppers]. rewrite bind_ret, Es, bind_ret, Ee. reflexivity.
  - cbn [tracer_steppers]. reflexivity.
Qed.

(** ... nor run with update_free_surface switched off. *)
Theorem C55_nonhydrostatic_fixed_surface_refuted : forall o,
  known_types o -> sensible_labels o -> co_nh o = true -> coupled o = false ->
  co_tracer_only o = false -> co_nh_fs o = false ->
  create_timestepper o = Err [] (AttributeError "fs2d").
Proof.
  intros o (K1 & _ & _ & _ & K5) HL Hn Hc Ht Hf. unfold create_timestepper. rewrite Hn.
  rewrite (lookup_known _ K1), bind_ret, (lookup_known _ K5), bind_ret. unfold nh_init, print_names.
  unfold coupled in Hc. apply orb_false_iff in Hc. destruct Hc as (Ec & Ee).
  apply orb_false_iff in Ec. destruct Ec as (Et & Es). rewrite Es, Hf.
  unfold skip. rewrite bind_ret. unfold create_integrators. rewrite Ht. cbn [call in_swe]. rewrite bind_ret.
  unfold get_eq. rewrite (eqs_sw o HL), !bind_ret. cbn [fst snd].
  unfold solve_tracer in Et. destruct (co_systems o); [|discriminate].
  rewrite Es, Ee. rewrite ?bind_ret. cbn. reflexivity.
Qed.

Print Assumptions C55_step_order.
Print Assumptions C55_picard_flags.
Print Assumptions C55_initialize.
