(** C72: initial conditions of the 2D solver. *)
From Coq Require Import List String Bool Arith Ascii Lia.
From Verif Require Import InitCond_Model.
Import ListNotations.
Open Scope string_scope.
Open Scope list_scope.

(** ** Labels *)
Lemma substring_all : forall s, substring 0 (String.length s) s = s.
Proof. induction s as [|a s IH]; [reflexivity |]. cbn. rewrite IH. reflexivity. Qed.
Lemma substring_right : forall b c, substring (String.length b) (String.length c) (b ++ c)%string = c.
Proof. induction b as [|a b IH]; intros c; cbn; [apply substring_all | apply IH]. Qed.
Lemma substring_left : forall b c, substring 0 (String.length b) (b ++ c)%string = b.
Proof. induction b as [|a b IH]; intros c; cbn; [destruct c; reflexivity | rewrite IH; reflexivity]. Qed.
Lemma substring_cut : forall s n m, n + m = String.length s -> (substring 0 n s ++ substring n m s)%string = s.
Proof.
  induction s as [|a s IH]; intros n m H; cbn in H.
  - assert (n = 0) by lia. assert (m = 0) by lia. subst. reflexivity.
  - destruct n as [|n]; cbn.
    + destruct m as [|m]; [discriminate |]. injection H as H. subst m. cbn. rewrite substring_all. reflexivity.
    + rewrite IH by lia. reflexivity.
Qed.
Lemma length_app_str : forall a b, String.length (a ++ b)%string = String.length a + String.length b.
Proof. induction a as [|x a IH]; intros b; cbn; [reflexivity | rewrite IH; reflexivity]. Qed.
Lemma last3_2d : forall b, last3 (b ++ "_2d")%string = "_2d".
Proof.
  intros b. unfold last3. rewrite length_app_str. cbn [String.length].
  replace (String.length b + 3 - 3) with (String.length b) by lia. apply (substring_right b "_2d").
Qed.
Lemma but_last3_2d : forall b, but_last3 (b ++ "_2d")%string = b.
Proof.
  intros b. unfold but_last3. rewrite length_app_str. cbn [String.length].
  replace (String.length b + 3 - 3) with (String.length b) by lia. apply substring_left.
Qed.
Lemma app_2d_inj : forall a b, (a ++ "_2d")%string = (b ++ "_2d")%string -> a = b.
Proof. intros a b H. rewrite <- (but_last3_2d a), H. apply but_last3_2d. Qed.
Lemma length_0 : forall b, b <> "" -> 0 < String.length b.
Proof. intros [|a b] H; [contradiction | cbn; lia]. Qed.
Lemma keeps_long : forall b, b <> "" -> label_of (b ++ "_2d")%string = (b ++ "_2d")%string.
Proof.
  intros b H. unfold label_of. rewrite last3_2d, length_app_str, String.eqb_refl.
  apply length_0 in H. cbn [String.length]. replace (Nat.ltb 3 (String.length b + 3)) with true by (symmetry; apply Nat.ltb_lt; lia).
  reflexivity.
Qed.
Lemma is_long : forall k, (Nat.ltb 3 (String.length k) && String.eqb (last3 k) "_2d") = true ->
  exists c, c <> "" /\ k = (c ++ "_2d")%string.
Proof.
  intros k H. apply andb_true_iff in H. destruct H as [H1 H2]. apply Nat.ltb_lt in H1. apply String.eqb_eq in H2.
  exists (but_last3 k). unfold last3, but_last3 in *. split.
  - intros E. destruct k as [|x k]; [cbn in H1; lia |].
    destruct (String.length (String x k) - 3) as [|n] eqn:L; [lia |]. cbn in E. discriminate.
  - rewrite <- H2. symmetry. apply substring_cut. lia.
Qed.

(** The tracer labelled b_2d is reached by the keyword b_2d, and by b unless b itself ends
    in _2d; by nothing else. *)
Theorem C72_label : forall b k, b <> "" ->
  (label_of k = (b ++ "_2d")%string <->
   k = (b ++ "_2d")%string \/ (k = b /\ ~ exists c, c <> "" /\ b = (c ++ "_2d")%string)).
Proof.
  intros b k Hb. split.
  - unfold label_of. destruct (Nat.ltb 3 (String.length k) && String.eqb (last3 k) "_2d") eqn:E; intros H.
    + left. exact H.
    + right. apply app_2d_inj in H. subst k. split; [reflexivity |]. intros [c [Hc ->]].
      rewrite last3_2d, length_app_str, String.eqb_refl in E. apply length_0 in Hc. cbn [String.length] in E.
      replace (Nat.ltb 3 (String.length c + 3)) with true in E by (symmetry; apply Nat.ltb_lt; lia). discriminate.
  - intros [->|[-> Hn]]; [apply keeps_long; exact Hb |].
    unfold label_of. destruct (Nat.ltb 3 (String.length b) && String.eqb (last3 b) "_2d") eqn:E; [| reflexivity].
    apply is_long in E. contradiction.
Qed.
Example C72_label_example :
  label_of "salt" = "salt_2d" /\ label_of "salt_2d" = "salt_2d" /\ label_of "_2d" = "_2d_2d" /\ label_of "a_2d_2d" = "a_2d_2d".
Proof. repeat split. Qed.

(** The boundary conditions of a tracer: its own entry, else the one without the suffix,
    else none; no other entry matters. *)
Theorem C72_tracer_bcs : forall (B : Type) (empty : B) bnd b,
  (forall x, bnd_get B (b ++ "_2d")%string bnd = Some x -> tracer_bcs B empty bnd (b ++ "_2d")%string = x) /\
  (bnd_get B (b ++ "_2d")%string bnd = None -> forall x, bnd_get B b bnd = Some x ->
     tracer_bcs B empty bnd (b ++ "_2d")%string = x) /\
  (bnd_get B (b ++ "_2d")%string bnd = None -> bnd_get B b bnd = None ->
     tracer_bcs B empty bnd (b ++ "_2d")%string = empty).
Proof.
  intros B empty bnd b. unfold tracer_bcs. rewrite but_last3_2d.
  split; [intros x ->; reflexivity |]. split; [intros -> x ->; reflexivity | intros -> ->; reflexivity].
Qed.
Example C72_tracer_bcs_example :
  tracer_bcs nat 0 [("tracer", 1); ("a_2d", 2); ("b", 3)] "a_2d" = 2 /\
  tracer_bcs nat 0 [("tracer", 1); ("a_2d", 2); ("b", 3)] "b_2d" = 3 /\
  tracer_bcs nat 0 [("tracer", 1); ("a_2d", 2); ("b", 3)] "c_2d" = 0.
Proof. repeat split. Qed.
(** In a mixed system the entries of its members are ignored, while the name with its last
    suffix cut off counts. *)
Theorem C72_mixed_bcs_refuted : forall (B : Type) (empty x y z : B),
  tracer_bcs B empty [("a_2d", x); ("b_2d", y); ("a", x); ("b", y)] "a_2d,b_2d" = empty /\
  tracer_bcs B empty [("a_2d", x); ("b_2d", y); ("a_2d,b", z)] "a_2d,b_2d" = z.
Proof. intros. split; reflexivity. Qed.

(** ** Fields *)
Section Fields.
Variable V : Type.
Variables proj_u proj_h proj_q cg cgv interp : V -> V.
Variables total_depth times f_stress f_erosion : V -> V -> V.
Variable f_equilibrium : V -> V -> V -> V.
Variables f_calfa f_salfa : V -> V.
Variables f_angle f_correction : V -> V -> V.

Notation new_sm := (new_sediment_model V cg cgv interp total_depth f_stress f_erosion f_equilibrium f_calfa f_salfa f_angle f_correction).
Notation upd := (update V cg cgv interp total_depth f_stress f_erosion f_equilibrium f_calfa f_salfa f_angle f_correction).
Notation assign_ := (assign V proj_u proj_h proj_q cg cgv interp total_depth times f_stress f_erosion f_equilibrium f_calfa f_salfa f_angle f_correction).
Notation load_ := (load V proj_u proj_h proj_q cg cgv interp total_depth times f_stress f_erosion f_equilibrium f_calfa f_salfa f_angle f_correction).
Notation set_up_ := (set_up V cg cgv interp total_depth f_stress f_erosion f_equilibrium f_calfa f_salfa f_angle f_correction).
Notation state := (state V).
Notation get := (get V).
Notation put := (put V).

(** the model has the functions its constructor creates *)
Definition some {A} (o : option A) : bool := match o with Some _ => true | None => false end.
Definition shaped (o : opts) (m : smodel V) : Prop :=
  some (m_erosion V m) = o_susp o /\ some (m_equilibrium V m) = o_susp o /\
  some (m_calfa V m) = o_bedload o /\ some (m_salfa V m) = o_bedload o /\
  some (m_angle V m) = o_bedload o && o_angle o /\ some (m_correction V m) = o_susp o && o_correction o.
(** a solver set up with these options, at whatever point of a run *)
Definition wf (o : opts) (s : state) : Prop :=
  map fst (tracers V s) = o_tracers o /\ some (sediment V s) = o_susp o /\
  some (model V s) = o_susp o || o_exner o /\ (forall m, model V s = Some m -> shaped o m).

(** Updating the sediment model makes it the one freshly built from the current velocity,
    elevation and bathymetry, unless it raises, which it does for the velocity correction
    without suspended sediment. *)
Theorem C72_sediment_model_current : forall o u e b m, shaped o m ->
  (o_correction o = true -> o_susp o = true) ->
  upd o u e b m = (new_sm o u e b, None).
Proof.
  intros o u e b m [H1 [H2 [H3 [H4 [H5 H6]]]]] Hc. unfold update, new_sediment_model.
  destruct m as [a1 a2 a3 a4 a5 a6 a7 a8 a9 a10]. cbn in *.
  destruct (o_susp o), (o_bedload o), (o_angle o), (o_correction o); cbn in *;
    destruct a5, a6, a7, a8, a9, a10; cbn in *; try discriminate; try reflexivity;
    specialize (Hc eq_refl); discriminate.
Qed.
Lemma shaped_new : forall o u e b, shaped o (new_sm o u e b).
Proof. intros o u e b. unfold shaped, new_sediment_model. cbn. destruct (o_susp o), (o_bedload o), (o_angle o), (o_correction o); cbn; auto 10. Qed.
Theorem C72_correction_without_suspension_refuted : forall o u e b m, shaped o m ->
  o_correction o = true -> o_susp o = false -> exists m', upd o u e b m = (m', Some NoAttribute) /\ shaped o m' /\
  m_uv V m' = cgv u /\ m_depth V m' = cg (total_depth b e).
Proof.
  intros o u e b m [H1 [H2 [H3 [H4 [H5 H6]]]]] Hc Hs. unfold update, shaped.
  destruct m as [a1 a2 a3 a4 a5 a6 a7 a8 a9 a10]. cbn in *. rewrite Hs, Hc in *. cbn in *.
  destruct a10; [discriminate |].
  destruct (o_bedload o), (o_angle o); cbn in *; eexists; (split; [reflexivity |]); cbn; auto 10.
Qed.

(** *** tracers *)
Lemma mem_in : forall l ls, mem l ls = true <-> In l ls.
Proof.
  intros l ls. unfold mem. rewrite existsb_exists. split.
  - intros [x [H1 H2]]. apply String.eqb_eq in H2. subst. exact H1.
  - intros H. exists l. split; [exact H | apply String.eqb_refl].
Qed.
Lemma get_some : forall l d, In l (map fst d) -> exists v, get l d = Some v.
Proof.
  intros l d. induction d as [|[k v] d IH]; intros H; [destruct H |]. cbn in *.
  destruct (String.eqb k l) eqn:E; [exists v; reflexivity |]. destruct H as [H|H]; [| apply IH; exact H].
  subst. rewrite String.eqb_refl in E. discriminate.
Qed.
Lemma put_keys : forall l v d, map fst (put l v d) = map fst d.
Proof. intros l v d. induction d as [|[k w] d IH]; [reflexivity |]. cbn. destruct (String.eqb k l); cbn; [reflexivity | rewrite IH; reflexivity]. Qed.
Lemma get_put : forall l v d l', In l (map fst d) ->
  get l' (put l v d) = if String.eqb l l' then Some v else get l' d.
Proof.
  intros l v d l'. induction d as [|[k w] d IH]; intros H; [destruct H |]. cbn in *.
  destruct (String.eqb k l) eqn:E; cbn.
  - apply String.eqb_eq in E. subst k. destruct (String.eqb l l') eqn:E'; [reflexivity | reflexivity].
  - destruct (String.eqb k l') eqn:E'.
    + apply String.eqb_eq in E'. subst l'. destruct (String.eqb l k) eqn:E2; [| reflexivity].
      apply String.eqb_eq in E2. subst l. rewrite String.eqb_refl in E. discriminate.
    + destruct H as [H|H]; [subst; rewrite String.eqb_refl in E; discriminate |]. apply IH. exact H.
Qed.

(** the value given for the tracer [l]: the last keyword that means it *)
Fixpoint last_value {A} (l : string) (kw : list (string * A)) : option A :=
  match kw with
  | [] => None
  | (k, v) :: r => match last_value l r with
                   | Some w => Some w
                   | None => if String.eqb (label_of k) l then Some v else None
                   end
  end.
Definition constants (kw : list (string * V)) : list (string * expr V) := map (fun p => (fst p, fun _ => snd p)) kw.

Lemma assign_tracers_ok : forall o kw s, map fst (tracers V s) = o_tracers o ->
  (forall k v, In (k, v) kw -> In (label_of k) (o_tracers o)) ->
  exists d, assign_tracers V proj_q o (constants kw) s = Ok V (set_tracers V s d) /\ map fst d = o_tracers o /\
    forall l, get l d = match last_value l kw with Some v => Some (proj_q v) | None => get l (tracers V s) end.
Proof.
  intros o kw. induction kw as [|[k v] kw IH]; intros s Hs Hk.
  - exists (tracers V s). split; [destruct s; reflexivity |]. split; [exact Hs | intros l; reflexivity].
  - cbn [constants map fst snd assign_tracers].
    assert (Hl : In (label_of k) (o_tracers o)) by (apply (Hk k v); left; reflexivity).
    replace (mem (label_of k) (o_tracers o)) with true by (symmetry; apply mem_in; exact Hl).
    assert (Hl' : In (label_of k) (map fst (tracers V s))) by (rewrite Hs; exact Hl).
    destruct (get_some _ _ Hl') as [w ->].
    destruct (IH (set_tracers V s (put (label_of k) (proj_q v) (tracers V s)))) as [d [E [Ed Eg]]].
    + cbn. rewrite put_keys. exact Hs.
    + intros k' v' H. apply (Hk k' v'). right. exact H.
    + exists d. split; [exact E |]. split; [exact Ed |]. intros l. rewrite Eg. cbn [last_value].
      destruct (last_value l kw); [reflexivity |]. cbn [tracers set_tracers]. rewrite get_put by exact Hl'.
      destruct (String.eqb (label_of k) l); reflexivity.
Qed.

(** the equilibrium concentration of a flow, times the depth in conservative form *)
Definition default_sediment (o : opts) (u e b : V) : V :=
  let uc := cgv u in let d := cg (total_depth b e) in
  let c := f_equilibrium (f_erosion uc d) uc d in
  if o_conservative o then times c (total_depth b e) else c.

(** Every given field takes its value (the velocity may refer to the new elevation), every
    tracer the value of the last keyword naming it; nothing else changes but the sediment
    model, which is made current for the new velocity and elevation, and the suspended
    sediment, which takes the given value or the equilibrium of the new flow.  Then, last
    and once, the time stepper is initialised with all these values. *)
Theorem C72_assign : forall o s g_elev g_uv g_sed kw, wf o s ->
  (forall k v, In (k, v) kw -> In (label_of k) (o_tracers o)) ->
  (o_susp o || o_exner o = true -> o_correction o = true -> o_susp o = true) ->
  exists s', assign_ o g_elev g_uv (option_map (fun v _ => v) g_sed) (constants kw) s = Ok V s' /\
    elev V s' = match g_elev with Some f => proj_h (f s) | None => elev V s end /\
    uv V s' = match g_uv with Some f => proj_u (f (set_elev V s (elev V s'))) | None => uv V s end /\
    bathy V s' = bathy V s /\
    (forall l, get l (tracers V s') = match last_value l kw with Some v => Some (proj_q v) | None => get l (tracers V s) end) /\
    model V s' = (if o_susp o || o_exner o then Some (new_sm o (uv V s') (elev V s') (bathy V s)) else None) /\
    sediment V s' = (if o_susp o
                     then Some (proj_q (match g_sed with
                                        | Some v => v
                                        | None => default_sediment o (uv V s') (elev V s') (bathy V s)
                                        end))
                     else None) /\
    started V s' = mkSnap V (elev V s') (uv V s') (tracers V s') (sediment V s') :: started V s /\
    wf o s'.
Proof.
  intros o s ge gu gs kw W Hk Hc. destruct W as [W1 [W2 [W3 W4]]].
  unfold assign. cbv zeta.
  set (s1 := assign_elev V proj_h ge s). set (s2 := assign_uv V proj_u gu s1).
  assert (E1 : s1 = mkState V (match ge with Some f => proj_h (f s) | None => elev V s end) (uv V s) (bathy V s)
                       (tracers V s) (sediment V s) (model V s) (started V s))
    by (subst s1; destruct ge; destruct s; reflexivity).
  assert (E1' : set_elev V s (elev V s1) = s1) by (rewrite E1; destruct s; reflexivity).
  assert (E2 : s2 = mkState V (elev V s1) (match gu with Some f => proj_u (f (set_elev V s (elev V s1))) | None => uv V s end)
                       (bathy V s) (tracers V s) (sediment V s) (model V s) (started V s)).
  { rewrite E1'. subst s2. destruct gu; cbn [assign_uv]; rewrite E1 at 1; [rewrite E1 at 1 |]; rewrite E1; reflexivity. }
  destruct (assign_tracers_ok o kw s2) as [d [Et [Ed Eg]]]; [rewrite E2; exact W1 | exact Hk |].
  rewrite Et. cbn [bind]. set (s3 := set_tracers V s2 d).
  set (e' := elev V s2). set (u' := uv V s2).
  assert (M : model V s3 = model V s) by (subst s3; cbn; rewrite E2; reflexivity).
  assert (U : update_model V cg cgv interp total_depth f_stress f_erosion f_equilibrium f_calfa f_salfa f_angle f_correction o s3 =
     Ok V (mkState V e' u' (bathy V s) d (sediment V s)
             (if o_susp o || o_exner o then Some (new_sm o u' e' (bathy V s)) else None) (started V s))).
  { unfold update_model. rewrite M. destruct (model V s) as [m|] eqn:Em.
    - cbn in W3. symmetry in W3. rewrite W3.
      rewrite (C72_sediment_model_current o _ _ _ m (W4 m eq_refl) (Hc W3)).
      cbv iota. subst s3 e' u'. unfold set_model. cbn [elev uv bathy tracers sediment started set_tracers].
      rewrite E2. reflexivity.
    - cbn in W3. symmetry in W3. rewrite W3. subst s3 e' u'. f_equal. unfold set_tracers. rewrite E2.
      cbn [elev uv bathy sediment model started]. reflexivity. }
  rewrite U. cbn [bind]. clear U M.
  assert (X : exists sd, assign_sediment V proj_q total_depth times o (option_map (fun v _ => v) gs)
     (mkState V e' u' (bathy V s) d (sediment V s)
             (if o_susp o || o_exner o then Some (new_sm o u' e' (bathy V s)) else None) (started V s)) =
     Ok V (mkState V e' u' (bathy V s) d sd
             (if o_susp o || o_exner o then Some (new_sm o u' e' (bathy V s)) else None) (started V s)) /\
     sd = (if o_susp o then Some (proj_q (match gs with Some v => v | None => default_sediment o u' e' (bathy V s) end)) else None)).
  { unfold assign_sediment. destruct (o_susp o) eqn:Es.
    - destruct gs as [v|]; cbn [option_map].
      + eexists. split; reflexivity.
      + cbn [orb model]. unfold new_sediment_model. cbn [m_equilibrium]. rewrite Es. eexists. split; [reflexivity |].
        unfold default_sediment. cbn [bathy elev]. destruct (o_conservative o); reflexivity.
    - cbn [orb]. destruct (sediment V s) eqn:Esd; [discriminate W2 |]. eexists. split; reflexivity. }
  destruct X as [sd [-> Hsd]]. cbn [bind].
  eexists. split; [reflexivity |]. cbn [start set_started elev uv bathy tracers sediment model started].
  assert (He : e' = elev V s1) by (subst e'; rewrite E2; reflexivity).
  split; [rewrite He, E1; reflexivity |].
  split; [subst u'; rewrite E2; cbn [uv]; rewrite He; reflexivity |].
  split; [reflexivity |].
  split; [intros l; rewrite Eg, E2; reflexivity |].
  split; [reflexivity |]. split; [exact Hsd |]. split; [reflexivity |].
  unfold wf. cbn [start set_started elev uv bathy tracers sediment model started].
  split; [exact Ed |]. split; [rewrite Hsd; destruct (o_susp o); reflexivity |].
  split; [destruct (o_susp o || o_exner o); reflexivity |].
  intros m Hm. destruct (o_susp o || o_exner o); [| discriminate]. injection Hm as <-. apply shaped_new.
Qed.

(** a solver that was set up is well formed *)
Theorem C72_set_up : forall o e u b trs sd, List.length trs = List.length (o_tracers o) ->
  wf o (set_up_ o e u b trs sd).
Proof.
  intros o e u b trs sd H. unfold wf, set_up. cbn.
  split. { clear -H. revert trs H. induction (o_tracers o) as [|l ls IH]; intros [|v trs] H; try discriminate; [reflexivity |].
           cbn in *. f_equal. apply IH. lia. }
  split; [destruct (o_susp o); reflexivity |]. split; [destruct (o_susp o || o_exner o); reflexivity |].
  intros m Hm. destruct (o_susp o || o_exner o); [| discriminate]. injection Hm as <-. apply shaped_new.
Qed.

Lemma assign_tracers_stop : forall o q s t k f r, assign_tracers V proj_q o q s = Ok V t ->
  ~ In (label_of k) (o_tracers o) ->
  assign_tracers V proj_q o (q ++ (k, f) :: r) s = Raise V (UnknownTracer (label_of k)) t.
Proof.
  intros o q. induction q as [|[k' f'] q IH]; intros s t k f r Et Hn; cbn [app assign_tracers] in *.
  - replace (mem (label_of k) (o_tracers o)) with false.
    + injection Et as <-. reflexivity.
    + symmetry. destruct (mem (label_of k) (o_tracers o)) eqn:E; [| reflexivity]. apply mem_in in E. contradiction.
  - destruct (mem (label_of k') (o_tracers o)); [| discriminate].
    destruct (get (label_of k') (tracers V s)); [| discriminate]. apply IH; assumption.
Qed.

(** An unknown keyword raises after elevation, velocity and the tracers named before it
    have been assigned, and the time stepper still holds the values it had: the fields
    and what will be stepped differ. *)
Theorem C72_unknown_tracer : forall o s g_elev g_uv g_sed kw1 k v kw2, wf o s ->
  (forall k v, In (k, v) kw1 -> In (label_of k) (o_tracers o)) -> ~ In (label_of k) (o_tracers o) ->
  exists s', assign_ o g_elev g_uv g_sed (constants (kw1 ++ (k, v) :: kw2)) s = Raise V (UnknownTracer (label_of k)) s' /\
    elev V s' = match g_elev with Some f => proj_h (f s) | None => elev V s end /\
    (forall l, get l (tracers V s') = match last_value l kw1 with Some v => Some (proj_q v) | None => get l (tracers V s) end) /\
    sediment V s' = sediment V s /\ model V s' = model V s /\ started V s' = started V s.
Proof.
  intros o s ge gu gs kw1 k v kw2 W Hk Hn. destruct W as [W1 _]. unfold assign. cbv zeta.
  set (s1 := assign_elev V proj_h ge s). set (s2 := assign_uv V proj_u gu s1).
  assert (T : tracers V s2 = tracers V s) by (subst s2 s1; destruct ge, gu; reflexivity).
  destruct (assign_tracers_ok o kw1 s2) as [d [Et [Ed Eg]]]; [rewrite T; exact W1 | exact Hk |].
  assert (A : assign_tracers V proj_q o (constants (kw1 ++ (k, v) :: kw2)) s2 = Raise V (UnknownTracer (label_of k)) (set_tracers V s2 d)).
  { unfold constants in *. rewrite map_app. cbn [map fst snd]. apply assign_tracers_stop; assumption. }
  rewrite A. cbn [bind]. eexists. split; [reflexivity |]. cbn [elev tracers sediment model started set_tracers].
  split; [subst s2 s1; destruct ge, gu; reflexivity |].
  split; [intros l; rewrite Eg, T; reflexivity |].
  subst s2 s1; destruct ge, gu; repeat split; reflexivity.
Qed.

(** Without suspended sediment the exner equation alone cannot be started with the default
    velocity correction: every call raises, whatever is given. *)
Theorem C72_exner_alone_refuted : forall o s g_elev g_uv g_sed kw, wf o s ->
  (forall k v, In (k, v) kw -> In (label_of k) (o_tracers o)) ->
  o_susp o = false -> o_exner o = true -> o_correction o = true ->
  exists s', assign_ o g_elev g_uv g_sed (constants kw) s = Raise V NoAttribute s' /\ started V s' = started V s.
Proof.
  intros o s ge gu gs kw W Hk Hs He Hc. destruct W as [W1 [W2 [W3 W4]]]. unfold assign. cbv zeta.
  set (s1 := assign_elev V proj_h ge s). set (s2 := assign_uv V proj_u gu s1).
  assert (T : tracers V s2 = tracers V s /\ model V s2 = model V s /\ started V s2 = started V s)
    by (subst s2 s1; destruct ge, gu; auto).
  destruct T as [T1 [T2 T3]].
  destruct (assign_tracers_ok o kw s2) as [d [Et [Ed Eg]]]; [rewrite T1; exact W1 | exact Hk |].
  rewrite Et. cbn [bind]. unfold update_model. cbn [model set_tracers]. rewrite T2.
  rewrite Hs, He in W3. destruct (model V s) as [m|] eqn:Em; [| discriminate].
  destruct (C72_correction_without_suspension_refuted o (uv V (set_tracers V s2 d)) (elev V (set_tracers V s2 d))
             (bathy V (set_tracers V s2 d)) m (W4 m eq_refl) Hc Hs) as [m' [E _]].
  rewrite E. cbn [bind]. eexists. split; [reflexivity |]. exact T3.
Qed.

(** Giving the same values again changes nothing but that the stepper starts again. *)
Theorem C72_again : forall o s g_elev g_uv g_sed kw s1, wf o s ->
  (forall k v, In (k, v) kw -> In (label_of k) (o_tracers o)) ->
  (o_susp o || o_exner o = true -> o_correction o = true -> o_susp o = true) ->
  let call s := assign_ o (option_map (fun v _ => v) g_elev) (option_map (fun v _ => v) g_uv)
                        (option_map (fun v _ => v) g_sed) (constants kw) s in
  call s = Ok V s1 ->
  exists s2, call s1 = Ok V s2 /\ elev V s2 = elev V s1 /\ uv V s2 = uv V s1 /\ bathy V s2 = bathy V s1 /\
    (forall l, get l (tracers V s2) = get l (tracers V s1)) /\
    sediment V s2 = sediment V s1 /\ model V s2 = model V s1.
Proof.
  intros o s ge gu gs kw s1 W Hk Hc. cbv zeta. intros E.
  destruct (C72_assign o s (option_map (fun v _ => v) ge) (option_map (fun v _ => v) gu) gs kw W Hk Hc)
    as [s1' [E1 [A1 [A2 [A3 [A4 [A5 [A6 [A7 A8]]]]]]]]].
  rewrite E in E1. injection E1 as <-.
  destruct (C72_assign o s1 (option_map (fun v _ => v) ge) (option_map (fun v _ => v) gu) gs kw A8 Hk Hc)
    as [s2 [E2 [B1 [B2 [B3 [B4 [B5 [B6 [B7 B8]]]]]]]]].
  assert (F1 : elev V s2 = elev V s1) by (rewrite B1; destruct ge; [rewrite A1 |]; reflexivity).
  assert (F2 : uv V s2 = uv V s1) by (rewrite B2; destruct gu; [rewrite A2 |]; reflexivity).
  exists s2. split; [exact E2 |]. split; [exact F1 |]. split; [exact F2 |]. split; [exact B3 |].
  split; [intros l; rewrite B4, A4; destruct (last_value l kw); reflexivity |].
  rewrite B5, B6, A5, A6, F1, F2, A3. split; reflexivity.
Qed.

(** Loading a stored state sets velocity and elevation, keeps the tracers as they happen to
    be, and puts the equilibrium concentration into the suspended sediment: what was there
    has no influence. *)
Theorem C72_load_state : forall o s su se, wf o s ->
  (o_susp o || o_exner o = true -> o_correction o = true -> o_susp o = true) ->
  exists s', load_ o su se s = Ok V s' /\ elev V s' = se /\ uv V s' = su /\
    (forall l, get l (tracers V s') = get l (tracers V s)) /\
    sediment V s' = (if o_susp o then Some (proj_q (default_sediment o su se (bathy V s))) else None) /\
    started V s' = mkSnap V se su (tracers V s') (sediment V s') :: started V s.
Proof.
  intros o s su se W Hc. unfold load.
  destruct (C72_assign o (set_elev V (put_uv V s su) se) None None None [] W
             (fun k v (H : In (k, v) []) => match H with end) Hc) as [s1 [E1 [A1 [A2 [A3 [A4 [A5 [A6 [A7 A8]]]]]]]]].
  exists s1. split; [exact E1 |]. cbn in A1, A2. split; [exact A1 |]. split; [exact A2 |]. split; [exact A4 |].
  rewrite A6, A7, A1, A2. cbn [bathy set_elev put_uv started]. split; [reflexivity |]. rewrite A6, A1, A2. reflexivity.
Qed.
End Fields.

(** ** Concrete cases: values are numbers, projection and formulae simple ones *)
Definition nassign := assign nat (fun v => v) (fun v => v) (fun v => v) (fun v => v) (fun v => v) (fun v => v)
  Nat.add Nat.mul Nat.mul Nat.add (fun e u d => e + u) (fun u => u) (fun u => u) Nat.add Nat.add.
Definition nload := load nat (fun v => v) (fun v => v) (fun v => v) (fun v => v) (fun v => v) (fun v => v)
  Nat.add Nat.mul Nat.mul Nat.add (fun e u d => e + u) (fun u => u) (fun u => u) Nat.add Nat.add.
Definition nsetup := set_up nat (fun v => v) (fun v => v) (fun v => v)
  Nat.add Nat.mul Nat.add (fun e u d => e + u) (fun u => u) (fun u => u) Nat.add Nat.add.
Definition o1 : opts := mkOpts ["salt_2d"; "temp_2d"] true false true false true true.

Example C72_assign_example :
  match nassign o1 (Some (fun _ => 1)) (Some (fun s => 2 + elev nat s)) None (constants nat [("salt", 5); ("temp_2d", 6); ("salt_2d", 7)])
          (nsetup o1 0 0 4 [0; 0] 9) with
  | Ok _ s => (elev nat s, uv nat s, tracers nat s, sediment nat s) = (1, 3, [("salt_2d", 7); ("temp_2d", 6)], Some 55)
  | Raise _ _ _ => False
  end /\ wf nat o1 (nsetup o1 0 0 4 [0; 0] 9).
Proof. split; [vm_compute; reflexivity |]. apply C72_set_up. reflexivity. Qed.

(** In conservative form the field is depth integrated, yet a given concentration is taken
    as it is: the equilibrium concentration given explicitly is not the default. *)
Theorem C72_conservative_sediment_refuted :
  let s := nsetup o1 1 3 4 [0; 0] 9 in
  let c := 3 + (1 + 4) + 3 in      (* the equilibrium concentration of this flow *)
  exists s1 s2, nassign o1 None None None [] s = Ok nat s1 /\ nassign o1 None None (Some (fun _ => c)) [] s = Ok nat s2 /\
    sediment nat s1 = Some (c * (1 + 4)) /\ sediment nat s2 = Some c /\ sediment nat s1 <> sediment nat s2.
Proof.
  cbv zeta. exists (final nat (nassign o1 None None None [] (nsetup o1 1 3 4 [0; 0] 9))).
  exists (final nat (nassign o1 None None (Some (fun _ => 3 + (1 + 4) + 3)) [] (nsetup o1 1 3 4 [0; 0] 9))).
  vm_compute. repeat split. discriminate.
Qed.

(** A restart does not continue the run: the suspended sediment is lost. *)
Theorem C72_restart_sediment_refuted :
  exists s s', started nat s <> [] /\ nload o1 (uv nat s) (elev nat s) s = Ok nat s' /\
    elev nat s' = elev nat s /\ uv nat s' = uv nat s /\ sediment nat s' <> sediment nat s.
Proof.
  pose (s := final nat (nassign o1 (Some (fun _ => 1)) (Some (fun _ => 3)) (Some (fun _ => 2)) [] (nsetup o1 0 0 4 [0; 0] 9))).
  exists s, (final nat (nload o1 (uv nat s) (elev nat s) s)). subst s.
  vm_compute. split; [discriminate |]. split; [reflexivity |]. split; [reflexivity |]. split; [reflexivity | discriminate].
Qed.
Example C72_unknown_example :
  exists s', nassign o1 (Some (fun _ => 1)) None None (constants nat [("salt", 5); ("elev_2d", 6)]) (nsetup o1 0 0 4 [0; 0] 9)
    = Raise nat (UnknownTracer "elev_2d") s' /\ elev nat s' = 1 /\ tracers nat s' = [("salt_2d", 5); ("temp_2d", 0)].
Proof.
  exists (final nat (nassign o1 (Some (fun _ => 1)) None None (constants nat [("salt", 5); ("elev_2d", 6)]) (nsetup o1 0 0 4 [0; 0] 9))).
  vm_compute. repeat split.
Qed.
Example C72_exner_alone_example :
  let o := mkOpts [] false true true false true false in
  wf nat o (nsetup o 0 0 4 [] 9) /\
  exists s', nassign o (Some (fun _ => 1)) None None [] (nsetup o 0 0 4 [] 9) = Raise nat NoAttribute s'.
Proof.
  split; [apply C72_set_up; reflexivity |].
  exists (final nat (nassign (mkOpts [] false true true false true false) (Some (fun _ => 1)) None None []
                       (nsetup (mkOpts [] false true true false true false) 0 0 4 [] 9))).
  vm_compute. reflexivity.
Qed.

Print Assumptions C72_assign.
Print Assumptions C72_label.
