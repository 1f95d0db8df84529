(** Lemmas about option objects. *)
From Coq Require Import String Ascii.
From Verif Require Import Num Exporter_Model Callback_Proofs Options_Model Options_Spec.
Open Scope string_scope.
Open Scope Z_scope.

(** ** Validation *)
Lemma is_int_value v : is_int v = true <-> exists z, int_value v z.
Proof.
  split.
  - destruct v; cbn; try discriminate; intros _.
    + exists z. now left.
    + destruct b; eexists; right; [left|right]; now split.
  - intros [z [->|[[-> _]|[-> _]]]]; reflexivity.
Qed.
Lemma int_value_as v z : int_value v z -> as_float v = Some (Fin (qz z)).
Proof. intros [->|[[-> ->]|[-> ->]]]; reflexivity. Qed.
Lemma num_value_as v f : num_value v f <-> as_float v = Some f.
Proof.
  split.
  - intros [->|[z [H ->]]]; [reflexivity|now apply int_value_as].
  - destruct v; cbn; try discriminate; intros [= <-].
    + right. exists z. split; [now left|reflexivity].
    + right. destruct b; eexists; (split; [right|reflexivity]); [left|right]; now split.
    + now left.
Qed.
Lemma is_float_as v : is_floatlike v = match as_float v with Some _ => true | None => false end.
Proof. now destruct v. Qed.

Lemma py_gt0 f : py_gt f (qz 0) = true <-> f_positive f.
Proof.
  unfold f_positive. destruct f; cbn.
  - destruct (Qcltb_spec (qz 0) q) as [H|H]; rewrite qz_0 in H; split; intros X; try discriminate; try reflexivity.
    + right. now exists q.
    + destruct X as [X|[q' [[= <-] X]]]; [discriminate|contradiction].
  - split; [now left|reflexivity].
  - split; [discriminate|intros [X|[q [X _]]]; discriminate].
  - split; [discriminate|intros [X|[q [X _]]]; discriminate].
Qed.
Lemma py_ge0 f : py_ge f (qz 0) = true <-> f_nonneg f.
Proof.
  unfold f_nonneg. destruct f; cbn.
  - destruct (Qcleb_spec (qz 0) q) as [H|H]; rewrite qz_0 in H; split; intros X; try discriminate; try reflexivity.
    + right. now exists q.
    + destruct X as [X|[q' [[= <-] X]]]; [discriminate|contradiction].
  - split; [now left|reflexivity].
  - split; [discriminate|intros [X|[q [X _]]]; discriminate].
  - split; [discriminate|intros [X|[q [X _]]]; discriminate].
Qed.
Lemma py_between lo hi f : (py_ge f lo && py_le f hi)%bool = true <-> f_between lo hi f.
Proof.
  unfold f_between. destruct f; cbn.
  - destruct (Qcleb_spec lo q) as [H|H]; destruct (Qcleb_spec q hi) as [H2|H2]; cbn;
      (split; intros X; [try discriminate; exists q; repeat split; assumption
                        |try reflexivity; destruct X as [q' [[= <-] [X1 X2]]]; contradiction]).
  - split; [discriminate|intros [q [X _]]; discriminate].
  - split; [discriminate|intros [q [X _]]; discriminate].
  - split; [discriminate|intros [q [X _]]; discriminate].
Qed.

Lemma holds_iff v p (P : pyfloat -> Prop) : (forall f, p f = true <-> P f) ->
  (is_floatlike v && holds v p = true <-> exists f, num_value v f /\ P f)%bool.
Proof.
  intros HP. rewrite is_float_as. unfold holds. destruct (as_float v) as [f|] eqn:E; cbn.
  - rewrite HP. split; [intros H; exists f; split; [now apply num_value_as|exact H]|].
    intros [f' [H1 H2]]. apply num_value_as in H1. congruence.
  - split; [discriminate|]. intros [f' [H1 _]]. apply num_value_as in H1. congruence.
Qed.
Lemma holds_int v p (P : Z -> Prop) : (forall z, p (Fin (qz z)) = true <-> P z) ->
  (is_int v && holds v p = true <-> exists z, int_value v z /\ P z)%bool.
Proof.
  intros HP. split.
  - intros H. apply andb_prop in H as [H1 H2]. apply is_int_value in H1 as [z Hz].
    unfold holds in H2. rewrite (int_value_as _ _ Hz) in H2. exists z. split; [exact Hz|now apply HP].
  - intros [z [Hz Hp]]. apply andb_true_intro. split; [apply is_int_value; now exists z|].
    unfold holds. rewrite (int_value_as _ _ Hz). now apply HP.
Qed.

Lemma accepts_iff h t v : accepts h t v = true <-> in_domain h t v.
Proof.
  destruct t; cbn [accepts in_domain].
  - apply is_int_value.
  - apply holds_int. intros z. cbn. destruct (Qcltb_spec (qz 0) (qz z)) as [H|H]; rewrite qz_lt in H; split; try discriminate; try reflexivity; intros; try assumption; lia.
  - apply holds_int. intros z. cbn. destruct (Qcleb_spec (qz 0) (qz z)) as [H|H]; rewrite qz_le in H; split; try discriminate; try reflexivity; intros; try assumption; lia.
  - rewrite <- andb_assoc.
    assert (E : (is_int v && (holds v (fun f => py_ge f (qz lo)) && holds v (fun f => py_le f (qz hi))) =
             is_int v && holds v (fun f => py_ge f (qz lo) && py_le f (qz hi)))%bool).
    { unfold holds. now destruct (as_float v). }
    rewrite E. apply holds_int. intros z. cbn.
    destruct (Qcleb_spec (qz lo) (qz z)) as [H|H]; destruct (Qcleb_spec (qz z) (qz hi)) as [H2|H2]; rewrite qz_le in H, H2; cbn; split; try discriminate; try reflexivity; intros; lia.
  - rewrite is_float_as. destruct (as_float v) eqn:E.
    + split; [intros _; exists p; now apply num_value_as|reflexivity].
    + split; [discriminate|]. intros [f H]. apply num_value_as in H. congruence.
  - apply holds_iff, py_gt0.
  - apply holds_iff, py_ge0.
  - rewrite <- andb_assoc.
    assert (E : (is_floatlike v && (holds v (fun f => py_ge f lo) && holds v (fun f => py_le f hi)) =
             is_floatlike v && holds v (fun f => py_ge f lo && py_le f hi))%bool).
    { unfold holds. now destruct (as_float v). }
    rewrite E. apply holds_iff. intros f. apply py_between.
  - destruct v; split; try discriminate; try (intros [? X]; discriminate); try reflexivity. intros _. now exists b.
  - destruct v; split; try discriminate; try (intros [? X]; discriminate); try reflexivity. intros _. now exists s.
  - destruct v; split; try discriminate; try (intros [? [X _]]; discriminate).
    + intros H. apply existsb_exists in H as [x [Hx E]]. apply String.eqb_eq in E. subst x. now exists s.
    + intros [s' [[= <-] H]]. apply existsb_exists. exists s. split; [exact H|apply String.eqb_refl].
  - destruct v; split; try discriminate; try (intros [? X]; discriminate); destruct k; try discriminate; try (intros [? X]; discriminate); try reflexivity. intros _. now exists scalar.
  - destruct v; split; try discriminate; try (intros [? [X|X]]; discriminate); destruct k; try discriminate; try (intros [? [X|X]]; discriminate); try reflexivity; intros _; exists scalar; auto.
  - destruct v; split; try discriminate; try (intros [? X]; discriminate).
    + intros ->. now exists k.
    + intros [k' [= _ ->]]. reflexivity.
  - destruct v; split; try discriminate; try (intros [? X]; discriminate).
    + intros H. exists k. destruct scalar; [discriminate|reflexivity].
    + intros [k' [= _ ->]]. reflexivity.
  - destruct v; split; try discriminate; try (intros X; discriminate). + intros ->. reflexivity. + now intros [= ->].
  - destruct v; split; try discriminate; reflexivity.
  - destruct v; split; try discriminate; reflexivity.
  - destruct v; split; try discriminate; reflexivity.
  - destruct v; split; try discriminate; try (intros [? [? [X _]]]; discriminate).
    + intros H. now exists cls, settings.
    + intros [c [st [[= <- <-] H]]]. exact H.
Qed.

Lemma validate_iff h d v : validate h d v = true <-> allowed h d v.
Proof.
  unfold validate, allowed. destruct v; try (rewrite accepts_iff; split; [intros H; right; split; [discriminate|exact H]|intros [[X _]|[_ H]]; [discriminate|exact H]]).
  split; [intros H; left; now split|intros [[_ H]|[X _]]; [exact H|contradiction]].
Qed.

(** ** Objects *)
Lemma getopt_with_val c o k v k' : getopt c (with_val o k v) k' = if String.eqb k' k then v else getopt c o k'.
Proof. unfold getopt. cbn. rewrite dict_get_set. now destruct (String.eqb k' k). Qed.
Lemma getopt_with_attr c o k v k' : getopt c (with_attr o k v) k' = getopt c o k'.
Proof. reflexivity. Qed.

Section Obj.
Variable h : classes.
Variable c : optclass.
Variable sub : string -> list (string * decl).
Hypothesis Hp : pairs_ok h c.

(** a successful notification stores an object of the paired class *)
Lemma notify_spec o k s p : dict_get (oc_pairs c) k = Some p ->
  (exists d, dict_get (oc_decls c) k = Some d /\ allowed h d (VStr s)) ->
  exists cls, dict_get (p_classes p) s = Some cls /\
    notify h c o k (VStr s) = (with_val o (p_name p) (VObj cls []), None).
Proof.
  intros Hk [d [Hd Ha]]. destruct (Hp k p Hk) as [[vals [s0 [cls0 [H1 [H2 [H3 [H4 [base [H5 H6]]]]]]]]] _].
  rewrite H1 in Hd. injection Hd as <-. destruct Ha as [[X _]|[_ [s' [[= <-] Hin]]]]; [discriminate|].
  destruct (H4 s Hin) as [cls Hc]. exists cls. split; [exact Hc|].
  unfold notify. rewrite Hk, Hc, H5. unfold store.
  assert (V : validate h (mkDecl (TInstance base) false (VObj cls0 [])) (VObj cls []) = true).
  { apply validate_iff. right. split; [discriminate|]. exists cls, []. split; [reflexivity|exact (H6 s cls Hc)]. }
  rewrite V. reflexivity.
Qed.

(** what one assignment does *)
Inductive assigned (o : obj) (k : string) (v : pyval) : obj -> Prop :=
| A_attr : dict_get (oc_decls c) k = None -> assigned o k v (with_attr o k v)
| A_plain d : dict_get (oc_decls c) k = Some d -> allowed h d v ->
    (dict_get (oc_pairs c) k = None \/ same_choice (getopt c o k) v = true) ->
    assigned o k v (with_val o k v)
| A_paired d p s cls : dict_get (oc_decls c) k = Some d -> allowed h d v ->
    dict_get (oc_pairs c) k = Some p -> v = VStr s -> same_choice (getopt c o k) v = false ->
    dict_get (p_classes p) s = Some cls ->
    assigned o k v (with_val (with_val o k v) (p_name p) (VObj cls [])).

Lemma setattr_cases o k v :
  (exists e, setattr h c o k v = (o, Some e)) \/ (exists o', setattr h c o k v = (o', None) /\ assigned o k v o').
Proof.
  unfold setattr. destruct (o_frozen o && negb (hasattr c o k))%bool; [left; now exists OTypeError|].
  destruct (dict_get (oc_decls c) k) as [d|] eqn:Ed.
  - unfold store. destruct (validate h d v) eqn:Ev; [|left; now exists OTraitError].
    apply validate_iff in Ev. right.
    destruct (same_choice (getopt c o k) v) eqn:Es.
    + exists (with_val o k v). split; [reflexivity|]. apply (A_plain o k v d); auto.
    + destruct (dict_get (oc_pairs c) k) as [p|] eqn:Ek.
      * destruct (Hp k p Ek) as [[vals [s0 [cls0 [H1 _]]]] _].
        rewrite H1 in Ed. injection Ed as <-.
        pose proof Ev as Ev'. destruct Ev as [[_ X]|[_ [s [-> Hin]]]]; [discriminate|].
        destruct (notify_spec (with_val o k (VStr s)) k s p Ek) as [cls [Hc Hn]].
        { eexists. split; [exact H1|exact Ev']. }
        rewrite Hn. eexists. split; [reflexivity|]. eapply A_paired; eauto.
      * unfold notify. rewrite Ek. eexists. split; [reflexivity|]. apply (A_plain o k v d); auto.
  - right. eexists. split; [reflexivity|]. now apply A_attr.
Qed.

Lemma setattr_accepted o k d v : dict_get (oc_decls c) k = Some d -> allowed h d v ->
  exists o', setattr h c o k v = (o', None) /\ assigned o k v o'.
Proof.
  intros Hd Ha. destruct (setattr_cases o k v) as [[e E]|H]; [|exact H]. exfalso.
  unfold setattr in E. unfold hasattr in E. rewrite Hd in E. rewrite andb_false_r in E.
  unfold store in E. apply validate_iff in Ha as Hv. rewrite Hv in E.
  destruct (same_choice (getopt c o k) v); [discriminate|].
  destruct (dict_get (oc_pairs c) k) as [p|] eqn:Ep.
  - destruct (Hp k p Ep) as [[vals [s0 [cls0 [D1 _]]]] _]. rewrite D1 in Hd. injection Hd as <-.
    pose proof Ha as Ha'. destruct Ha as [[_ X]|[_ [s [-> Hin]]]]; [discriminate|].
    destruct (notify_spec (with_val o k (VStr s)) k s p Ep) as [cls [_ N]]; [eexists; split; [exact D1|exact Ha']|].
    rewrite N in E. discriminate.
  - unfold notify in E. rewrite Ep in E. discriminate.
Qed.

Lemma setattr_rejected o k v o' e : setattr h c o k v = (o', Some e) -> o' = o.
Proof. destruct (setattr_cases o k v) as [[e' ->]|[o1 [-> _]]]; congruence. Qed.

Lemma sub_allowed_fresh cls : sub_allowed h sub (VObj cls []).
Proof. intros cls' st k x [= <- <-]. discriminate. Qed.

Lemma assigned_valid o k v o' : assigned o k v o' -> sub_allowed h sub v -> valid_obj h c sub o -> valid_obj h c sub o'.
Proof.
  intros A Hv V. destruct A as [Hn|d Hd Ha _|d p s cls Hd Ha Hk -> _ Hc].
  - intros k' d' Hd'. rewrite getopt_with_attr. now apply V.
  - intros k' d' Hd'. rewrite getopt_with_val. destruct (String.eqb_spec k' k) as [->|N]; [|now apply V].
    rewrite Hd in Hd'. injection Hd' as <-. now split.
  - intros k' d' Hd'. rewrite !getopt_with_val.
    destruct (String.eqb_spec k' (p_name p)) as [->|N].
    + split; [|apply sub_allowed_fresh].
      destruct (Hp k p Hk) as [[vals [s0 [cls0 [_ [_ [_ [_ [base [H5 H6]]]]]]]]] _].
      rewrite H5 in Hd'. injection Hd' as <-. right. split; [discriminate|]. exists cls, []. split; [reflexivity|exact (H6 s cls Hc)].
    + destruct (String.eqb_spec k' k) as [->|N2]; [|now apply V].
      rewrite Hd in Hd'. injection Hd' as <-. now split.
Qed.

Lemma setattr_valid o k v : sub_allowed h sub v -> valid_obj h c sub o -> valid_obj h c sub (fst (setattr h c o k v)).
Proof.
  intros Hv V. destruct (setattr_cases o k v) as [[e ->]|[o1 [-> A]]]; [exact V|]. cbn. eapply assigned_valid; eauto.
Qed.

Lemma update_valid kvs : forall o, (forall k v, In (k, v) kvs -> sub_allowed h sub v) ->
  valid_obj h c sub o -> valid_obj h c sub (fst (update h c o kvs)).
Proof.
  induction kvs as [|[k v] r IH]; intros o Hv V; [exact V|]. cbn [update].
  pose proof (setattr_valid o k v (Hv k v (or_introl eq_refl)) V) as V1.
  destruct (setattr h c o k v) as [o1 [e|]]; [exact V1|]. apply IH; [|exact V1]. intros. apply (Hv k0). now right.
Qed.

Lemma set_sub_cases o k s v :
  (exists e, set_sub h c sub o k s v = (o, Some e)) \/
  (exists cls st d, getopt c o k = VObj cls st /\ dict_get (sub cls) s = Some d /\ allowed h d v /\
     set_sub h c sub o k s v = (with_val o k (VObj cls (dict_set st s v)), None)).
Proof.
  unfold set_sub. destruct (getopt c o k) eqn:E; try (left; now exists OAttributeError).
  destruct (dict_get (sub cls) s) as [d|] eqn:Ed; [|left; now exists OTypeError].
  destruct (validate h d v) eqn:Ev; [|left; now exists OTraitError].
  right. exists cls, settings, d. repeat split; try assumption. now apply validate_iff.
Qed.

Lemma set_sub_valid o k s v : valid_obj h c sub o -> valid_obj h c sub (fst (set_sub h c sub o k s v)).
Proof.
  intros V. destruct (set_sub_cases o k s v) as [[e ->]|[cls [st [d [E [Ed [Ha ->]]]]]]]; [exact V|]. cbn.
  intros k' d' Hd'. rewrite getopt_with_val. destruct (String.eqb_spec k' k) as [->|N]; [|now apply V].
  destruct (V k d' Hd') as [A B]. rewrite E in A, B. split.
  - destruct A as [[X _]|[_ A]]; [discriminate|]. right. split; [discriminate|].
    apply accepts_iff. apply accepts_iff in A. rewrite <- A. now destruct (d_trait d').
  - intros cls' st' k2 x [= <- <-]. rewrite dict_get_set. destruct (String.eqb_spec k2 s) as [->|N2].
    + intros [= <-]. now exists d.
    + intros Hx. eapply B; eauto.
Qed.

Lemma optstep_valid o op : op_values_ok h sub op -> valid_obj h c sub o -> valid_obj h c sub (fst (optstep h c sub o op)).
Proof.
  destruct op as [k v|kvs|k s v]; cbn [op_values_ok optstep]; intros Hv V.
  - now apply setattr_valid.
  - now apply update_valid.
  - now apply set_sub_valid.
Qed.

Lemma optrun_valid ops : forall o, Forall (op_values_ok h sub) ops -> valid_obj h c sub o -> valid_obj h c sub (optrun h c sub o ops).
Proof.
  induction ops as [|op ops IH]; intros o F V; [exact V|]. inversion F; subst. cbn. apply IH; [assumption|]. now apply optstep_valid.
Qed.

(** ** the set of attributes *)
Lemma setattr_hasattr o k v k' : o_frozen o = true ->
  o_frozen (fst (setattr h c o k v)) = true /\ hasattr c (fst (setattr h c o k v)) k' = hasattr c o k'.
Proof.
  intros Hf. pose proof (setattr_cases o k v) as [[e E]|[o1 [E A]]].
  - rewrite E. cbn. now split.
  - rewrite E. cbn [fst]. destruct A as [Hn|d Hd Ha _|d p s cls Hd Ha Hk -> _ Hc]; cbn; try (now split).
    split; [exact Hf|]. unfold hasattr. cbn. destruct (dict_get (oc_decls c) k') eqn:Ek'; [reflexivity|].
    rewrite dict_get_set. destruct (String.eqb_spec k' k) as [->|N]; [|reflexivity].
    unfold setattr in E. rewrite Hf in E. unfold hasattr in E. rewrite Hn in E.
    destruct (dict_get (o_attrs o) k) eqn:Ea; [reflexivity|]. cbn in E. discriminate.
Qed.
Lemma update_hasattr kvs k' : forall o, o_frozen o = true ->
  o_frozen (fst (update h c o kvs)) = true /\ hasattr c (fst (update h c o kvs)) k' = hasattr c o k'.
Proof.
  induction kvs as [|[k v] r IH]; intros o Hf; [now split|]. cbn [update].
  destruct (setattr_hasattr o k v k' Hf) as [H1 H2]. destruct (setattr h c o k v) as [o1 [e|]]; cbn [fst] in *.
  - now split.
  - destruct (IH o1 H1) as [H3 H4]. split; [exact H3|]. now rewrite H4.
Qed.
Lemma optstep_hasattr o op k' : o_frozen o = true ->
  o_frozen (fst (optstep h c sub o op)) = true /\ hasattr c (fst (optstep h c sub o op)) k' = hasattr c o k'.
Proof.
  intros Hf. destruct op as [k v|kvs|k s v]; cbn [optstep].
  - now apply setattr_hasattr.
  - now apply update_hasattr.
  - destruct (set_sub_cases o k s v) as [[e ->]|[cls [st [d [_ [_ [_ ->]]]]]]]; cbn; now split.
Qed.
Lemma optrun_hasattr ops k' : forall o, o_frozen o = true ->
  o_frozen (optrun h c sub o ops) = true /\ hasattr c (optrun h c sub o ops) k' = hasattr c o k'.
Proof.
  induction ops as [|op ops IH]; intros o Hf; [now split|]. cbn.
  destruct (optstep_hasattr o op k' Hf) as [H1 H2]. destruct (IH _ H1) as [H3 H4]. split; [exact H3|]. unfold optrun in H4. now rewrite H4.
Qed.

(** ** pairing *)
Lemma assigned_follows o k v o' e p : assigned o k v o' -> dict_get (oc_pairs c) e = Some p ->
  p_name p <> k -> follows c o e p -> follows c o' e p.
Proof.
  intros A He Nk [s [cls [st [F1 [F2 F3]]]]].
  destruct (Hp e p He) as [[vals [s0 [cls0 [D1 [D2 [D3 [D4 [base [D5 D6]]]]]]]]] Hint].
  destruct A as [Hn|d Hd Ha Hor|d p1 s1 cls1 Hd Ha Hk -> Hsame Hc].
  - exists s, cls, st. now rewrite !getopt_with_attr.
  - destruct (String.eqb_spec e k) as [->|N].
    + destruct Hor as [Hor|Hor]; [congruence|]. rewrite F1 in Hor. destruct v; cbn in Hor; try discriminate.
      apply String.eqb_eq in Hor. rewrite <- Hor in *.
      exists s, cls, st. rewrite !getopt_with_val, String.eqb_refl.
      destruct (String.eqb_spec (p_name p) k); [congruence|]. repeat split; assumption.
    + exists s, cls, st. rewrite !getopt_with_val.
      destruct (String.eqb_spec e k); [congruence|]. destruct (String.eqb_spec (p_name p) k); [congruence|]. repeat split; assumption.
  - destruct (String.eqb_spec e k) as [->|N].
    + rewrite Hk in He. injection He as ->. exists s1, cls1, []. rewrite !getopt_with_val, !String.eqb_refl.
      destruct (String.eqb_spec k (p_name p)); [congruence|]. repeat split; assumption.
    + destruct (Hint k p1 Hk) as [I1 I2]. specialize (I2 (not_eq_sym N)).
      exists s, cls, st. rewrite !getopt_with_val.
      destruct (String.eqb_spec e (p_name p1)); [congruence|]. destruct (String.eqb_spec e k); [congruence|].
      destruct (String.eqb_spec (p_name p) (p_name p1)); [congruence|]. destruct (String.eqb_spec (p_name p) k); [congruence|].
      repeat split; assumption.
Qed.
Lemma setattr_follows o k v e p : dict_get (oc_pairs c) e = Some p -> p_name p <> k ->
  follows c o e p -> follows c (fst (setattr h c o k v)) e p.
Proof.
  intros He Nk F. destruct (setattr_cases o k v) as [[x ->]|[o1 [-> A]]]; [exact F|]. eapply assigned_follows; eauto.
Qed.
Lemma update_follows kvs e p : dict_get (oc_pairs c) e = Some p ->
  forall o, (forall k v, In (k, v) kvs -> p_name p <> k) -> follows c o e p -> follows c (fst (update h c o kvs)) e p.
Proof.
  intros He. induction kvs as [|[k v] r IH]; intros o N F; [exact F|]. cbn [update].
  pose proof (setattr_follows o k v e p He (N k v (or_introl eq_refl)) F) as F1.
  destruct (setattr h c o k v) as [o1 [x|]]; [exact F1|]. apply IH; [|exact F1]. intros. apply (N k0 v0). now right.
Qed.
Lemma set_sub_follows o k s v e p : dict_get (oc_pairs c) e = Some p ->
  follows c o e p -> follows c (fst (set_sub h c sub o k s v)) e p.
Proof.
  intros He F. destruct (set_sub_cases o k s v) as [[x ->]|[cls [st [d [E [Ed [Ha ->]]]]]]]; [exact F|]. cbn.
  destruct F as [s1 [cls1 [st1 [F1 [F2 F3]]]]].
  destruct (String.eqb_spec e k) as [->|N]; [congruence|].
  destruct (String.eqb_spec (p_name p) k) as [<-|N2].
  - rewrite F3 in E. injection E as <- <-. exists s1, cls1, (dict_set st1 s v). rewrite !getopt_with_val, String.eqb_refl.
    destruct (String.eqb_spec e (p_name p)); [congruence|]. repeat split; assumption.
  - exists s1, cls1, st1. rewrite !getopt_with_val.
    destruct (String.eqb_spec e k); [congruence|]. destruct (String.eqb_spec (p_name p) k); [congruence|]. repeat split; assumption.
Qed.
Lemma optrun_follows ops e p : dict_get (oc_pairs c) e = Some p ->
  forall o, Forall (not_by_hand c) ops -> follows c o e p -> follows c (optrun h c sub o ops) e p.
Proof.
  intros He. induction ops as [|op ops IH]; intros o F V; [exact V|]. inversion F; subst. cbn. apply IH; [assumption|].
  destruct op as [k v|kvs|k s v]; cbn [optstep not_by_hand] in *.
  - apply setattr_follows; eauto.
  - apply update_follows; eauto.
  - now apply set_sub_follows.
Qed.
Lemma new_follows attrs e p : dict_get (oc_pairs c) e = Some p -> follows c (new_obj attrs) e p.
Proof.
  intros He. destruct (Hp e p He) as [[vals [s0 [cls0 [D1 [D2 [D3 [D4 [base [D5 D6]]]]]]]]] _].
  exists s0, cls0, []. unfold getopt, dflt. cbn. rewrite D1, D5. now repeat split.
Qed.

(** ** set_timestepper_type *)
Lemma setattr_getopt o k v o' d : dict_get (oc_decls c) k = Some d -> setattr h c o k v = (o', None) ->
  (forall p, dict_get (oc_pairs c) k = Some p -> p_name p <> k) -> getopt c o' k = v.
Proof.
  intros Hd E Hk. destruct (setattr_cases o k v) as [[e X]|[o1 [X A]]]; rewrite X in E; [discriminate|]. injection E as ->.
  destruct A as [Hn|d' Hd' Ha Hor|d' p1 s1 cls1 Hd' Ha Hk1 -> Hsame Hc].
  - congruence.
  - rewrite getopt_with_val, String.eqb_refl. reflexivity.
  - rewrite !getopt_with_val, String.eqb_refl. destruct (String.eqb_spec k (p_name p1)); [|reflexivity]. symmetry in e. now apply Hk in e.
Qed.
Lemma setattr_other o k v o' j : setattr h c o k v = (o', None) -> j <> k ->
  (forall p, dict_get (oc_pairs c) k = Some p -> p_name p <> j) -> getopt c o' j = getopt c o j.
Proof.
  intros E N Hk. destruct (setattr_cases o k v) as [[e X]|[o1 [X A]]]; rewrite X in E; [discriminate|]. injection E as ->.
  destruct A as [Hn|d' Hd' Ha Hor|d' p1 s1 cls1 Hd' Ha Hk1 -> Hsame Hc].
  - reflexivity.
  - rewrite getopt_with_val. destruct (String.eqb_spec j k); [contradiction|reflexivity].
  - rewrite !getopt_with_val. destruct (String.eqb_spec j (p_name p1)); [symmetry in e; now apply Hk in e|].
    destruct (String.eqb_spec j k); [contradiction|reflexivity].
Qed.

Lemma set_types_spec ty : forall enums o o', 
  (forall e, In e enums -> exists p, dict_get (oc_pairs c) e = Some p) ->
  set_types h c o enums ty = (o', None) ->
  (forall e p, dict_get (oc_pairs c) e = Some p -> follows c o e p) ->
  (forall e, (In e enums \/ getopt c o e = ty) -> (exists p, dict_get (oc_pairs c) e = Some p) -> getopt c o' e = ty) /\
  (forall e p, dict_get (oc_pairs c) e = Some p -> follows c o' e p).
Proof.
  induction enums as [|e r IH]; intros o o' Hin E F; cbn [set_types] in E.
  - injection E as <-. split; [|exact F]. intros e [[]|X] _. exact X.
  - destruct (setattr h c o e ty) as [o1 [x|]] eqn:E1; [discriminate|].
    destruct (Hin e (or_introl eq_refl)) as [p Hpe].
    destruct (Hp e p Hpe) as [[vals [s0 [cls0 [D1 _]]]] Hint].
    assert (G : getopt c o1 e = ty).
    { eapply setattr_getopt; eauto. intros p' Hp'. rewrite Hpe in Hp'. injection Hp' as <-. exact (proj1 (Hint e p Hpe)). }
    assert (F1 : forall e2 p2, dict_get (oc_pairs c) e2 = Some p2 -> follows c o1 e2 p2).
    { intros e2 p2 H2. pose proof (setattr_follows o e ty e2 p2 H2) as K. rewrite E1 in K. apply K; [|now apply F].
      exact (proj1 (Hint e2 p2 H2)). }
    destruct (IH o1 o') as [G2 F2]; [intros; apply Hin; now right|exact E|exact F1|].
    split; [|exact F2]. intros e2 H2 Hex. apply G2; [|exact Hex].
    destruct (String.eqb_spec e2 e) as [->|N]; [now right|].
    destruct H2 as [[->|H2]|H2]; [congruence|now left|]. right.
    rewrite (setattr_other o e ty o1 e2 E1 N); [exact H2|].
    intros p' Hp'. destruct Hex as [p2 Hp2]. exact (proj1 (proj2 (Hp e2 p2 Hp2) e p' Hp')).
Qed.

(** settings that later assignments keep *)
Definition has_setting (o : obj) (sl k : string) (v : pyval) : Prop := sub_setting c o sl k = Some v.
Lemma set_sub_sets o sl k v o' : set_sub h c sub o sl k v = (o', None) -> has_setting o' sl k v.
Proof.
  intros E. destruct (set_sub_cases o sl k v) as [[x X]|[cls [st [d [H1 [H2 [H3 X]]]]]]]; rewrite X in E; [discriminate|].
  injection E as <-. unfold has_setting, sub_setting. rewrite getopt_with_val, String.eqb_refl, dict_get_set, String.eqb_refl. reflexivity.
Qed.
Lemma set_sub_keeps o sl k v o' sl2 k2 v2 : set_sub h c sub o sl k v = (o', None) -> (k2 = k -> v2 = v) ->
  has_setting o sl2 k2 v2 -> has_setting o' sl2 k2 v2.
Proof.
  intros E Nk H. destruct (set_sub_cases o sl k v) as [[x X]|[cls [st [d [H1 [H2 [H3 X]]]]]]]; rewrite X in E; [discriminate|].
  injection E as <-. unfold has_setting, sub_setting in *. rewrite getopt_with_val.
  destruct (String.eqb_spec sl2 sl) as [->|N]; [|exact H]. rewrite H1 in H. rewrite dict_get_set.
  destruct (String.eqb_spec k2 k) as [->|N2]; [now rewrite Nk|exact H].
Qed.
Lemma set_subs_sets k v : forall slaves o o', set_subs h c sub o slaves k v = (o', None) ->
  (forall sl, In sl slaves -> has_setting o' sl k v) /\
  (forall sl k2 v2, (k2 = k -> v2 = v) -> has_setting o sl k2 v2 -> has_setting o' sl k2 v2).
Proof.
  induction slaves as [|sl r IH]; intros o o' E; cbn [set_subs] in E.
  - injection E as <-. split; [intros ? []|auto].
  - destruct (set_sub h c sub o sl k v) as [o1 [x|]] eqn:E1; [discriminate|].
    destruct (IH o1 o' E) as [I1 I2]. split.
    + intros sl2 [<-|H]; [|now apply I1]. apply I2; [auto|]. eapply set_sub_sets; eauto.
    + intros sl2 k2 v2 N H. apply I2; [exact N|]. eapply set_sub_keeps; eauto.
Qed.
Lemma set_kwargs_sets slaves : forall kw o o', NoDup (map fst kw) -> set_kwargs h c sub o slaves kw = (o', None) ->
  (forall sl k v, In sl slaves -> In (k, v) kw -> has_setting o' sl k v) /\
  (forall sl k2 v2, ~ In k2 (map fst kw) -> has_setting o sl k2 v2 -> has_setting o' sl k2 v2).
Proof.
  induction kw as [|[k v] r IH]; intros o o' ND E; cbn [set_kwargs] in E.
  - injection E as <-. split; [intros ? ? ? ? []|auto].
  - destruct (set_subs h c sub o slaves k v) as [o1 [x|]] eqn:E1; [discriminate|]. inversion ND; subst.
    destruct (set_subs_sets k v slaves o o1 E1) as [S1 S2]. destruct (IH o1 o' H2 E) as [I1 I2]. split.
    + intros sl k' v' Hs [[= <- <-]|H]; [|now apply I1]. apply I2; [exact H1|]. now apply S1.
    + intros sl k2 v2 N H. cbn in N. apply I2; [tauto|]. apply S2; [|exact H]. intros ->. tauto.
Qed.
Lemma set_subs_follows k v e p : dict_get (oc_pairs c) e = Some p -> forall slaves o,
  follows c o e p -> follows c (fst (set_subs h c sub o slaves k v)) e p.
Proof.
  intros He. induction slaves as [|sl r IH]; intros o F; [exact F|]. cbn [set_subs].
  pose proof (set_sub_follows o sl k v e p He F) as F1. destruct (set_sub h c sub o sl k v) as [o1 [x|]]; [exact F1|now apply IH].
Qed.
Lemma set_subs_enum k v e s : forall slaves o, getopt c o e = VStr s ->
  getopt c (fst (set_subs h c sub o slaves k v)) e = VStr s.
Proof.
  induction slaves as [|sl r IH]; intros o F; [exact F|]. cbn [set_subs].
  assert (F1 : getopt c (fst (set_sub h c sub o sl k v)) e = VStr s).
  { destruct (set_sub_cases o sl k v) as [[x ->]|[cls [st [d [H1 [_ [_ ->]]]]]]]; [exact F|]. cbn. rewrite getopt_with_val.
    destruct (String.eqb_spec e sl) as [->|]; [congruence|exact F]. }
  destruct (set_sub h c sub o sl k v) as [o1 [x|]]; [exact F1|now apply IH].
Qed.
Lemma set_kwargs_follows slaves e p : dict_get (oc_pairs c) e = Some p -> forall kw o,
  follows c o e p -> follows c (fst (set_kwargs h c sub o slaves kw)) e p.
Proof.
  intros He. induction kw as [|[k v] r IH]; intros o F; [exact F|]. cbn [set_kwargs].
  pose proof (set_subs_follows k v e p He slaves o F) as F1. destruct (set_subs h c sub o slaves k v) as [o1 [x|]]; [exact F1|now apply IH].
Qed.
Lemma set_kwargs_enum slaves e s : forall kw o, getopt c o e = VStr s ->
  getopt c (fst (set_kwargs h c sub o slaves kw)) e = VStr s.
Proof.
  induction kw as [|[k v] r IH]; intros o F; [exact F|]. cbn [set_kwargs].
  pose proof (set_subs_enum k v e s slaves o F) as F1. destruct (set_subs h c sub o slaves k v) as [o1 [x|]]; [exact F1|now apply IH].
Qed.
End Obj.

(** checking declarations *)
Definition forall_dict {A} (d : list (string * A)) (p : string -> A -> bool) : bool := forallb (fun kv => p (fst kv) (snd kv)) d.
Lemma forall_dict_get {A} (d : list (string * A)) p k v : forall_dict d p = true -> dict_get d k = Some v -> p k v = true.
Proof.
  induction d as [|[k' v'] r IH]; cbn; [discriminate|]. intros H. apply andb_prop in H as [H1 H2].
  destruct (String.eqb_spec k k') as [->|]; [now intros [= <-]|now apply IH].
Qed.
Definition pair_check (h : classes) (c : optclass) (e : string) (p : pairing) : bool :=
  match dict_get (oc_decls c) e with
  | Some (mkDecl (TEnum vals) false (VStr s0)) =>
      existsb (String.eqb s0) vals &&
      forallb (fun s => match dict_get (p_classes p) s with Some _ => true | None => false end) vals &&
      match dict_get (p_classes p) s0, dict_get (oc_decls c) (p_name p) with
      | Some cls0, Some (mkDecl (TInstance base) false (VObj cls1 [])) =>
          String.eqb cls0 cls1 && forall_dict (p_classes p) (fun _ cls => isinstance_of h cls base)
      | _, _ => false
      end &&
      forall_dict (oc_pairs c) (fun e' p' => negb (String.eqb (p_name p') e) && (String.eqb e' e || negb (String.eqb (p_name p') (p_name p))))
  | _ => false
  end%bool.
Lemma pair_check_ok h c : forall_dict (oc_pairs c) (pair_check h c) = true -> pairs_ok h c.
Proof.
  intros H e p He. pose proof (forall_dict_get _ _ _ _ H He) as K. unfold pair_check in K.
  destruct (dict_get (oc_decls c) e) as [[t n df]|] eqn:Ed; [|discriminate].
  destruct t; try discriminate. destruct n; [discriminate|]. destruct df; try discriminate.
  apply andb_prop in K as [K K4]. apply andb_prop in K as [K K3]. apply andb_prop in K as [K1 K2].
  destruct (dict_get (p_classes p) s) as [cls0|] eqn:Es; [|discriminate].
  destruct (dict_get (oc_decls c) (p_name p)) as [[t2 n2 df2]|] eqn:Ed2; [|discriminate].
  destruct t2; try discriminate. destruct n2; [discriminate|]. destruct df2; try discriminate. destruct settings; [|discriminate].
  apply andb_prop in K3 as [K3 K5]. apply String.eqb_eq in K3. subst cls.
  split.
  - exists values, s, cls0. split; [reflexivity|]. split.
    { apply existsb_exists in K1 as [x [Hx Ex]]. apply String.eqb_eq in Ex. now subst. }
    split; [exact Es|]. split.
    { intros s1 Hs1. rewrite forallb_forall in K2. specialize (K2 s1 Hs1). destruct (dict_get (p_classes p) s1) as [cls|]; [now exists cls|discriminate]. }
    exists base. split; [reflexivity|]. intros s1 cls Hc. exact (forall_dict_get _ _ _ _ K5 Hc).
  - intros e' p' He'. pose proof (forall_dict_get _ _ _ _ K4 He') as M. cbn in M. apply andb_prop in M as [M1 M2].
    split.
    + intros X. rewrite X, String.eqb_refl in M1. discriminate.
    + intros N X. rewrite X, String.eqb_refl in M2. destruct (String.eqb_spec e' e); [contradiction|discriminate].
Qed.
