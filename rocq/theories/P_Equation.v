(** C38: an equation's residual is the sum of the selected terms. *)
From Coq Require Import String Reals List Bool Lra.
From Verif Require Import Exporter_Model Exporter_Proofs Callback_Proofs Equation_Model Equation_Spec Equation_Proofs.
Import ListNotations.
Open Scope string_scope.

(** For every history of calls that did not raise: the residual for any selection
    of labels is the sum, over the registered keys in order of first appearance,
    of the term last added under the key, provided the key's last label is
    selected. *)
Theorem C38_residual_is_sum T (res : T -> R) ops e sel :
  eqrun T empty_eq ops = (e, None) -> residual T res e sel = Some (sum_of_terms T res ops (selected sel)).
Proof. apply residual_spec. Qed.

(** 'all' is every registered term, each key once. *)
Theorem C38_all_terms_once T (res : T -> R) ops e :
  eqrun T empty_eq ops = (e, None) ->
  NoDup (keys_after T ops) /\
  residual T res e None = Some (total (map (fun k => match term_after T ops k with Some t => res t | None => 0%R end) (keys_after T ops))).
Proof.
  intros H. pose proof (run_empty T ops e H) as [K N TM LB HS]. split; [exact N|].
  rewrite (residual_spec T res ops e None H). f_equal. unfold sum_of_terms. f_equal. apply map_ext_in. intros k Hk.
  destruct (HS k Hk) as [l [-> Hl]]. apply existsb_in in Hl. cbn [selected]. rewrite Hl. destruct (term_after T ops k); reflexivity.
Qed.

(** The four labels partition it. *)
Theorem C38_labels_partition T (res : T -> R) ops e :
  eqrun T empty_eq ops = (e, None) ->
  exists s x i n, residual T res e (Some ["source"]) = Some s /\ residual T res e (Some ["explicit"]) = Some x /\
    residual T res e (Some ["implicit"]) = Some i /\ residual T res e (Some ["nonlinear"]) = Some n /\
    residual T res e None = Some (s + x + i + n)%R.
Proof.
  intros H. rewrite !(residual_spec T res ops e _ H). cbn [selected].
  do 4 eexists. repeat (split; [reflexivity|]). f_equal.
  change supported_labels with (["source"] ++ ["explicit"] ++ ["implicit"] ++ ["nonlinear"])%list.
  rewrite !sum_select_app.
  - lra.
  - intros l [<-|[]] [H1|[]]; discriminate.
  - intros l [<-|[]] [H1|[H1|[]]]; discriminate.
  - intros l [<-|[]] [H1|[H1|[H1|[]]]]; discriminate.
Qed.

(** Selecting two disjoint sets of labels adds the residuals. *)
Theorem C38_selection_additive T (res : T -> R) ops e s1 s2 :
  eqrun T empty_eq ops = (e, None) -> (forall l, In l s1 -> In l s2 -> False) ->
  exists a b, residual T res e (Some s1) = Some a /\ residual T res e (Some s2) = Some b /\
              residual T res e (Some (s1 ++ s2)%list) = Some (a + b)%R.
Proof.
  intros H D. rewrite !(residual_spec T res ops e _ H). cbn [selected]. do 2 eexists. split; [reflexivity|]. split; [reflexivity|].
  now rewrite sum_select_app.
Qed.

(** Adding a term under a key that is in use replaces the old term: the residual
    changes by the difference, and no key is added. *)
Theorem C38_replacing_a_term T (res : T -> R) ops e cls t t0 label suffix e' :
  eqrun T empty_eq ops = (e, None) -> term_after T ops (term_key cls suffix) = Some t0 -> In (term_key cls suffix) (keys_after T ops) ->
  add_term T e cls t label suffix = (e', None) ->
  exists a, residual T res e None = Some a /\ residual T res e' None = Some (a - res t0 + res t)%R /\ map fst (e_terms e') = map fst (e_terms e).
Proof.
  intros H Ht Hin E. assert (H' : eqrun T empty_eq (ops ++ [AddTerm cls t label suffix])%list = (e', None)).
  { clear -H E. revert H. generalize (@empty_eq T). induction ops as [|op r IH]; intros e0 H; cbn [app eqrun] in *.
    - injection H as <-. cbn [eqstep]. now rewrite E.
    - destruct (eqstep T e0 op) as [e1 [x|]]; [discriminate|]. now apply IH. }
  destruct (C38_all_terms_once T res ops e H) as [N R1]. destruct (C38_all_terms_once T res _ e' H') as [N' R2].
  pose proof (tr_keys T e ops (run_empty T ops e H)) as K1. pose proof (tr_keys T e' _ (run_empty T _ e' H')) as K2.
  assert (KK : keys_after T (ops ++ [AddTerm cls t label suffix]) = keys_after T ops).
  { unfold keys_after at 1. rewrite fold_left_app. cbn [fold_left key_of]. fold (keys_after T ops).
    apply existsb_in in Hin. now rewrite Hin. }
  rewrite R1, R2, KK. eexists. split; [reflexivity|]. split; [|congruence]. f_equal.
  set (key := term_key cls suffix) in *.
  assert (X : forall l, NoDup l -> total (map (fun k => match term_after T (ops ++ [AddTerm cls t label suffix]) k with Some t1 => res t1 | None => 0%R end) l) =
     (total (map (fun k => match term_after T ops k with Some t1 => res t1 | None => 0%R end) l) + (if existsb (String.eqb key) l then res t - res t0 else 0))%R).
  { induction l as [|k l IH]; intros Nl; cbn [map existsb]; [cbn; lra|]. inversion Nl as [|z w Hk Nl']; subst.
    unfold total in *. cbn [fold_right]. rewrite (IH Nl'). unfold term_after at 1. rewrite fold_left_app. cbn [fold_left]. fold key. fold (term_after T ops k).
    destruct (String.eqb_spec key k) as [Ek|Ek].
    - subst k. rewrite Ht. destruct (existsb (String.eqb key) l) eqn:El; [apply existsb_in in El; contradiction|]. cbn. lra.
    - cbn. lra. }
  rewrite (X _ N). apply existsb_in in Hin. rewrite Hin. lra.
Qed.

(** Unsupported labels and unknown keys are rejected. *)
Theorem C38_bad_label_rejected T (e : equation T) key label :
  ~ In label supported_labels \/ ~ In key (map fst (e_terms e)) -> label_term T e key label = (e, Some EqAssertion).
Proof.
  intros H. unfold label_term. destruct (has_key (e_terms e) key) eqn:E1; [|reflexivity].
  destruct (existsb (String.eqb label) supported_labels) eqn:E2; [|reflexivity].
  apply has_key_in in E1. apply existsb_in in E2. tauto.
Qed.
(** Refuted clause: add_term with an unsupported label raises, but the term stays,
    without a label, and every later residual raises. *)
Theorem C38_failed_add_refuted T (res : T -> R) cls t label suffix :
  ~ In label supported_labels ->
  exists e, add_term T empty_eq cls t label suffix = (e, Some EqAssertion) /\ e_terms e = [(term_key cls suffix, t)] /\
    forall sel, residual T res e sel = None.
Proof.
  intros H. eexists. split; [|split].
  - unfold add_term. apply C38_bad_label_rejected. now left.
  - reflexivity.
  - intros sel. reflexivity.
Qed.

(** The equations of the code base lose no term: every term of the list below is
    selected exactly once by its own label ... *)
Definition code_equations : list (list (string * string)) :=
  ([swe_terms true; swe_terms false; swe_continuity_terms; swe_momentum_terms true; swe_momentum_terms false; modesplit_terms; momentum3d_terms; tracer3d_terms;
   sediment_terms true; sediment_terms false] ++
   map (fun b => exner_terms (fst (fst b)) (snd (fst b)) (snd b))
       [(true,true,true);(true,true,false);(true,false,true);(true,false,false);(false,true,true);(false,true,false);(false,false,true);(false,false,false)])%list.
Theorem C38_code_equations_complete (res : string * option string -> R) eqn sel :
  In eqn code_equations ->
  exists e, eqrun _ empty_eq (build eqn) = (e, None) /\
  residual _ res e sel = Some (total (map (fun tl => if existsb (String.eqb (snd tl)) (selected sel) then res (fst tl, None) else 0%R) eqn)).
Proof.
  intros Hin.
  assert (N : NoDup (map fst eqn) /\ Forall (fun tl => In (snd tl) supported_labels) eqn).
  { assert (D : forallb (fun q => (if list_eq_dec string_dec (nodup string_dec (map fst q)) (map fst q) then true else false) &&
                 forallb (fun tl => existsb (String.eqb (snd tl)) supported_labels) q)%bool code_equations = true) by (vm_compute; reflexivity).
    rewrite forallb_forall in D. specialize (D eqn Hin). apply andb_prop in D as [D1 D2]. split.
    - destruct (list_eq_dec string_dec (nodup string_dec (map fst eqn)) (map fst eqn)) as [E|]; [|discriminate].
      rewrite <- E. apply NoDup_nodup.
    - apply Forall_forall. intros tl Htl. rewrite forallb_forall in D2. apply existsb_in. now apply D2. }
  destruct N as [N F]. set (ads := map (fun tl => (fst tl, (fst tl, None), snd tl, None) : adding (string * option string)) eqn).
  assert (B : build eqn = map (ad_op _) ads) by (unfold build, ads; rewrite map_map; reflexivity).
  destruct (adds_run _ ads empty_eq) as [e E].
  { unfold ads. apply Forall_forall. intros a Ha. apply in_map_iff in Ha as [tl [<- Htl]]. rewrite Forall_forall in F. now apply F. }
  rewrite <- B in E. exists e. split; [exact E|]. rewrite (residual_spec _ res _ e sel E), B, adds_sum.
  - unfold ads. rewrite map_map. reflexivity.
  - unfold ads. rewrite map_map. exact N.
Qed.

(** ... and so do the equations of a 2D tracer system, for every list of distinct
    tracer labels. *)
Theorem C38_tracer_system_complete (res : string * option string -> R) conservative labels :
  NoDup labels ->
  exists e, eqrun _ empty_eq (build_system conservative labels) = (e, None) /\
  residual _ res e None = Some (total (map (fun l => total (map (fun tl => res (fst tl, Some l)) (tracer2d_terms (conservative l)))) labels)).
Proof.
  intros N. set (ads := concat (map (fun l => map (fun tl => (fst tl, (fst tl, Some l), snd tl, Some l) : adding (string * option string)) (tracer2d_terms (conservative l))) labels)).
  assert (B : build_system conservative labels = map (ad_op _) ads).
  { unfold build_system, ads. rewrite concat_map, map_map. f_equal. apply map_ext. intros l. rewrite map_map. reflexivity. }
  assert (L : Forall (fun a => In (ad_label _ a) supported_labels) ads).
  { apply Forall_forall. intros a Ha. unfold ads in Ha. apply in_concat in Ha as [x [Hx Ha]]. apply in_map_iff in Hx as [l [<- Hl]].
    apply in_map_iff in Ha as [tl [<- Htl]]. cbn [ad_label]. unfold tracer2d_terms in Htl. destruct (conservative l); cbn in Htl;
      destruct Htl as [<-|[<-|[<-|[]]]]; cbn; auto. }
  destruct (adds_run _ ads empty_eq L) as [e E]. rewrite <- B in E. exists e. split; [exact E|]. rewrite (residual_spec _ res _ e None E), B, adds_sum.
  - f_equal. transitivity (total (map (fun a => res (ad_term _ a)) ads)).
    + f_equal. apply map_ext_in. intros a Ha. rewrite Forall_forall in L. specialize (L a Ha). apply existsb_in in L. cbn [selected]. now rewrite L.
    + unfold ads. rewrite concat_map, map_map, total_concat, map_map. f_equal. apply map_ext. intros l. rewrite map_map. reflexivity.
  - unfold ads. clear -N. induction N as [|l labels Hl N IH]; cbn [map concat]; [constructor|]. rewrite map_app.
    assert (KI : forall c1 c2 l1 l2 t1 t2, In t1 (tracer2d_terms c1) -> In t2 (tracer2d_terms c2) ->
       term_key (fst t1) (Some l1) = term_key (fst t2) (Some l2) -> fst t1 = fst t2 /\ l1 = l2).
    { intros c1 c2 l1 l2 t1 t2 H1 H2. unfold tracer2d_terms in *. destruct c1, c2; cbn in H1, H2;
        destruct H1 as [<-|[<-|[<-|[]]]]; destruct H2 as [<-|[<-|[<-|[]]]]; cbn; intros X; try discriminate; injection X as <-; auto. }
    assert (NA : forall (a b : list string), NoDup a -> NoDup b -> (forall x, In x a -> In x b -> False) -> NoDup (a ++ b)%list).
    { intros a b Na Nb D. induction Na as [|x a Hx Na IHa]; cbn; [assumption|]. constructor.
      - intros Hi. apply in_app_iff in Hi as [Hi|Hi]; [contradiction|]. apply (D x); [now left|exact Hi].
      - apply IHa. intros y Hy. apply D. now right. }
    apply NA; [| exact IH |].
    + rewrite map_map. unfold tracer2d_terms. destruct (conservative l); cbn; repeat constructor; cbn; intros Hi;
        repeat (destruct Hi as [Hi|Hi]; [discriminate|]); destruct Hi.
    + intros x Hx Hy. apply in_map_iff in Hx as [a [<- Ha]]. apply in_map_iff in Ha as [tl [<- Htl]].
      apply in_map_iff in Hy as [b [Eb Hb]]. apply in_concat in Hb as [y [Hy Hb]]. apply in_map_iff in Hy as [l' [<- Hl']].
      apply in_map_iff in Hb as [tl' [<- Htl']]. cbn [ad_key] in Eb. destruct (KI _ _ _ _ _ _ Htl' Htl Eb) as [_ ->]. contradiction.
Qed.

Example C38_case :
  let ops := [AddTerm "Advection" 1%R "explicit" None; AddTerm "Source" 10%R "source" (Some "a"); AddTerm "Source" 100%R "source" (Some "b");
              LabelTerms ["Advection"; "Source_b"] "implicit"; AddTerm "Source" 1000%R "explicit" (Some "a")] in
  exists e, eqrun R empty_eq ops = (e, None) /\ residual R (fun x => x) e None = Some (0 + 1 + 1000 + 100)%R /\
    residual R (fun x => x) e (Some ["implicit"]) = Some (0 + 1 + 100)%R /\
    residual R (fun x => x) e (Some ["explicit"]) = Some (0 + 1000)%R /\ residual R (fun x => x) e (Some ["source"]) = Some 0%R.
Proof. cbn zeta. eexists. split; [reflexivity|]. repeat split. Qed.

Print Assumptions C38_residual_is_sum.
Print Assumptions C38_all_terms_once.
Print Assumptions C38_labels_partition.
Print Assumptions C38_selection_additive.
Print Assumptions C38_replacing_a_term.
Print Assumptions C38_bad_label_rejected.
Print Assumptions C38_failed_add_refuted.
Print Assumptions C38_code_equations_complete.
Print Assumptions C38_tracer_system_complete.
