(** Lemmas about tracer registration and frozen objects. *)
From Coq Require Import String Ascii.
From Verif Require Import Num Exporter_Model Exporter_Proofs Callback_Proofs Options_Model Options_Spec.
Open Scope string_scope.
Open Scope Z_scope.

Lemma sapp_nil_r (s : string) : s ++ "" = s.
Proof. induction s; cbn; congruence. Qed.
Lemma sapp_assoc' (a b d : string) : (a ++ b) ++ d = a ++ (b ++ d).
Proof. induction a; cbn; congruence. Qed.

Lemma split_acc_app a : has_char "," a = false -> forall s acc, split_comma_acc (a ++ s) acc = split_comma_acc s (acc ++ a).
Proof.
  induction a as [|x a IH]; intros H s acc; cbn.
  - now rewrite sapp_nil_r.
  - cbn in H. apply orb_false_iff in H as [H1 H2]. rewrite H1. rewrite IH by exact H2. now rewrite sapp_assoc'.
Qed.
Lemma split_join l : l <> [] -> (forall a, In a l -> has_char "," a = false) -> split_comma (join_labels l) = l.
Proof.
  unfold split_comma. induction l as [|a [|b r] IH]; intros N H; [congruence| |].
  - cbn. rewrite <- (sapp_nil_r a) at 1. rewrite split_acc_app by (apply H; now left). reflexivity.
  - change (join_labels (a :: b :: r)) with (a ++ "," ++ join_labels (b :: r)).
    rewrite split_acc_app by (apply H; now left). cbn. f_equal. apply IH; [discriminate|]. intros; apply H; now right.
Qed.

(** ** add_tracer_2d *)
Definition meta_of (s : tspec) : string * string * string * string :=
  (s_name s, match s_short s with Some x => if String.eqb x "" then s_name s else x | None => s_name s end, s_unit s, s_file s).
Lemma dict_set_fresh {A} (d : list (string * A)) k v : dict_get d k = None -> dict_set d k v = (d ++ [(k, v)])%list.
Proof.
  induction d as [|[k' v'] r IH]; cbn; [reflexivity|]. destruct (String.eqb k k'); [discriminate|]. intros H. now rewrite IH.
Qed.
Lemma dict_set_app {A} (d : list (string * A)) k v w : dict_get d k = None -> dict_set (d ++ [(k, v)])%list k w = (d ++ [(k, w)])%list.
Proof.
  induction d as [|[k' v'] r IH]; cbn.
  - now rewrite String.eqb_refl.
  - destruct (String.eqb k k'); [discriminate|]. intros H. now rewrite IH.
Qed.

Definition add1 (r : registry) (s : tspec) (kw : tkwargs) := add_tracer_2d r (s_label s) (s_name s) (s_file s) (s_short s) (s_unit s) kw.
Definition kw_ok (kw : tkwargs) : bool :=
  (coeff_ok (k_function kw) && coeff_ok (k_source kw) && coeff_ok (k_diffusivity kw) && coeff_ok (k_conservative kw))%bool.

Lemma add1_cases r s kw :
  (add1 r s kw = (r, Some OAssertion)) \/
  (dict_get (r_tracer r) (s_label s) = None /\ has_char "," (s_label s) = false /\
   let r1 := mkReg (r_tracer r ++ [(s_label s, mkTracer (Some (meta_of s)))]) (r_fields r) in
   add1 r s kw = if kw_ok kw then (if k_mixed kw then r1 else add_field r1 (s_label s), None) else (r1, Some OTraitError)).
Proof.
  unfold add1, add_tracer_2d. destruct (dict_get (r_tracer r) (s_label s)) as [t|] eqn:E; [now left|]. cbn [orb].
  destruct (has_char " " (s_label s)); [now left|]. cbn [orb].
  destruct (has_char "," (s_label s)) eqn:Ec; [now left|]. cbn [orb].
  destruct (has_char " " (s_file s)); [now left|]. right. split; [reflexivity|]. split; [reflexivity|].
  cbn zeta. fold (kw_ok kw). unfold set_tracer. cbn [r_tracer r_fields].
  rewrite (dict_set_fresh _ _ _ E), (dict_set_app _ _ _ _ E). unfold meta_of.
  destruct (kw_ok kw); cbn; [|reflexivity]. now destruct (k_mixed kw).
Qed.

Lemma add_field_tracer r k : r_tracer (add_field r k) = r_tracer r.
Proof. reflexivity. Qed.
Lemma add_field_fresh r k : ~ In k (r_fields r) -> r_fields (add_field r k) = (r_fields r ++ [k])%list.
Proof.
  intros H. unfold add_field. cbn. destruct (existsb (String.eqb k) (r_fields r)) eqn:E; [|reflexivity].
  apply existsb_exists in E as [x [Hx E]]. apply String.eqb_eq in E. now subst.
Qed.

Lemma dict_get_app {A} (d1 d2 : list (string * A)) k : dict_get (d1 ++ d2)%list k = match dict_get d1 k with Some v => Some v | None => dict_get d2 k end.
Proof. induction d1 as [|[k' v'] r IH]; cbn; [reflexivity|]. now destruct (String.eqb k k'). Qed.

(** existing entries never change and labels stay unique, whatever happens *)
Lemma add1_grows r s kw l t : dict_get (r_tracer r) l = Some t -> dict_get (r_tracer (fst (add1 r s kw))) l = Some t.
Proof.
  intros H. destruct (add1_cases r s kw) as [->|[E [_ ->]]]; [exact H|]. cbn zeta.
  destruct (kw_ok kw); [destruct (k_mixed kw)|]; cbn; now rewrite dict_get_app, H.
Qed.
Lemma add1_nodup r s kw : NoDup (map fst (r_tracer r)) -> NoDup (map fst (r_tracer (fst (add1 r s kw)))).
Proof.
  intros H. destruct (add1_cases r s kw) as [->|[E [_ ->]]]; [exact H|]. cbn zeta.
  assert (K : NoDup (map fst (r_tracer r ++ [(s_label s, mkTracer (Some (meta_of s)))]))).
  { rewrite <- (dict_set_fresh _ _ _ E). now apply dict_set_nodup. }
  destruct (kw_ok kw); [destruct (k_mixed kw)|]; exact K.
Qed.
Lemma add1_meta r s kw : (forall l t, dict_get (r_tracer r) l = Some t -> t_meta t <> None) ->
  forall l t, dict_get (r_tracer (fst (add1 r s kw))) l = Some t -> t_meta t <> None.
Proof.
  intros H l t. destruct (add1_cases r s kw) as [->|[E [_ ->]]]; [apply H|]. cbn zeta.
  assert (K : dict_get (r_tracer r ++ [(s_label s, mkTracer (Some (meta_of s)))])%list l = Some t -> t_meta t <> None).
  { rewrite dict_get_app. destruct (dict_get (r_tracer r) l) eqn:El; [intros [= <-]; eapply H; eauto|].
    cbn. destruct (String.eqb l (s_label s)); [intros [= <-]; discriminate|discriminate]. }
  destruct (kw_ok kw); [destruct (k_mixed kw)|]; exact K.
Qed.
(** any property of the tracer dictionary that single additions keep *)
Lemma add_all_inv (P : list (string * tracer) -> Prop) kw : (forall r s k, P (r_tracer r) -> P (r_tracer (fst (add1 r s k)))) ->
  forall specs r, P (r_tracer r) -> P (r_tracer (fst (add_all r specs kw))).
Proof.
  intros HP. induction specs as [|s rest IH]; intros r H; [exact H|]. cbn [add_all].
  pose proof (HP r s (kw (s_label s)) H) as K. unfold add1 in K.
  destruct (add_tracer_2d r (s_label s) (s_name s) (s_file s) (s_short s) (s_unit s) (kw (s_label s))) as [r1 [e|]]; [exact K|]. now apply IH.
Qed.
Lemma regstep_inv (P : list (string * tracer) -> Prop) : (forall r s k, P (r_tracer r) -> P (r_tracer (fst (add1 r s k)))) ->
  forall r op, P (r_tracer r) -> P (r_tracer (fst (regstep r op))).
Proof.
  intros HP r [s kw|specs kw] H; cbn [regstep].
  - now apply HP.
  - unfold add_tracer_system_2d. destruct (negb _); [exact H|]. destruct (negb _); [exact H|].
    apply (add_all_inv P); [exact HP|exact H].
Qed.
Lemma regrun_inv (P : list (string * tracer) -> Prop) : (forall r s k, P (r_tracer r) -> P (r_tracer (fst (add1 r s k)))) ->
  forall ops r, P (r_tracer r) -> P (r_tracer (regrun r ops)).
Proof.
  intros HP. induction ops as [|op ops IH]; intros r H; [exact H|]. cbn. apply IH. now apply regstep_inv.
Qed.

(** ** histories of successful calls *)
Lemma add_all_success kw : forall specs r r', (forall l, k_mixed (kw l) = true) -> add_all r specs kw = (r', None) ->
  r_fields r' = r_fields r /\
  r_tracer r' = (r_tracer r ++ map (fun s => (s_label s, mkTracer (Some (meta_of s)))) specs)%list /\
  (forall s, In s specs -> has_char "," (s_label s) = false /\ ~ In (s_label s) (map fst (r_tracer r))).
Proof.
  induction specs as [|s rest IH]; intros r r' Hm E; cbn [add_all] in E.
  - injection E as <-. cbn. rewrite app_nil_r. split; [reflexivity|]. split; [reflexivity|]. intros ? [].
  - fold (add1 r s (kw (s_label s))) in E.
    destruct (add1_cases r s (kw (s_label s))) as [X|[E1 [Ec X]]]; rewrite X in E; [discriminate|]. cbn zeta in E.
    rewrite Hm in E. destruct (kw_ok (kw (s_label s))); [|discriminate].
    destruct (IH _ _ Hm E) as [I1 [I2 I3]]. cbn in I1, I2, I3. split; [exact I1|]. split.
    + rewrite I2. cbn. now rewrite <- app_assoc.
    + intros s' [<-|Hs].
      * split; [exact Ec|]. rewrite dict_get_in. congruence.
      * destruct (I3 s' Hs) as [J1 J2]. split; [exact J1|]. rewrite map_app, in_app_iff in J2. tauto.
Qed.

Definition good (r : registry) : Prop :=
  solved r = map fst (r_tracer r) /\ (forall k, In k (r_fields r) -> split_comma k <> []).

Lemma split_nonempty s : split_comma s <> [].
Proof.
  unfold split_comma. assert (H : forall acc, split_comma_acc s acc <> []); [|apply H].
  induction s as [|x s IH]; intros acc; cbn; [discriminate|]. destruct (Ascii.eqb x ","); [discriminate|apply IH].
Qed.
Lemma solved_field r k a : In k (r_fields r) -> In a (split_comma k) -> In a (solved r).
Proof. intros H1 H2. unfold solved. apply in_concat. exists (split_comma k). split; [now apply in_map|exact H2]. Qed.

Lemma regstep_good r op r' : op_plain op -> regstep r op = (r', None) -> solved r = map fst (r_tracer r) ->
  solved r' = map fst (r_tracer r') /\ map fst (r_tracer r') = (map fst (r_tracer r) ++ op_labels op)%list.
Proof.
  intros Hpl E G. destruct op as [s kw|specs kw]; cbn [regstep op_labels op_plain] in *.
  - fold (add1 r s kw) in E. destruct (add1_cases r s kw) as [X|[E1 [Ec X]]]; rewrite X in E; [discriminate|]. cbn zeta in E.
    rewrite Hpl in E. destruct (kw_ok kw); [|discriminate]. injection E as <-.
    rewrite add_field_tracer. cbn [r_tracer]. rewrite map_app. cbn [map fst]. split; [|reflexivity].
    assert (N : ~ In (s_label s) (r_fields r)).
    { intros H. assert (Hs : split_comma (s_label s) = [s_label s]) by (apply (split_join [s_label s]); [discriminate|intros a [<-|[]]; exact Ec]).
      assert (In (s_label s) (solved r)) by (eapply solved_field; [exact H|rewrite Hs; now left]).
      rewrite G, dict_get_in in H0. congruence. }
    unfold solved. rewrite add_field_fresh by exact N. cbn [r_fields]. rewrite map_app, concat_app. fold (solved r). rewrite G. cbn.
    rewrite app_nil_r. f_equal. apply (split_join [s_label s]); [discriminate|intros a [<-|[]]; exact Ec].
  - unfold add_tracer_system_2d in E. set (kw1 := match kw with [] => _ | _ => _ end) in E.
    destruct (negb (forallb (fun p => existsb (String.eqb (fst p)) (map s_label specs)) kw1)); [discriminate|].
    destruct (negb (forallb (fun l => match dict_get kw1 l with Some _ => true | None => false end) (map s_label specs))); [discriminate|].
    apply add_all_success in E; [|intros l; now destruct (dict_get kw1 l)].
    destruct E as [E1 [E2 E3]]. rewrite add_field_tracer in E2.
    assert (L : map fst (r_tracer r') = (map fst (r_tracer r) ++ map s_label specs)%list).
    { rewrite E2, map_app, map_map. reflexivity. }
    split; [|exact L]. rewrite L.
    assert (J : split_comma (join_labels (map s_label specs)) = map s_label specs).
    { apply split_join; [now destruct specs|]. intros a Ha. apply in_map_iff in Ha as [s [<- Hs]]. now apply E3. }
    assert (N : ~ In (join_labels (map s_label specs)) (r_fields r)).
    { intros H. destruct specs as [|s0 rest]; [now apply Hpl|].
      assert (In (s_label s0) (solved r)) by (eapply solved_field; [exact H|rewrite J; now left]).
      rewrite G in H0. destruct (E3 s0 (or_introl eq_refl)) as [_ X]. rewrite add_field_tracer in X. contradiction. }
    unfold solved. rewrite E1, add_field_fresh by exact N. rewrite map_app, concat_app. fold (solved r). rewrite G. cbn [map concat]. now rewrite J, app_nil_r.
Qed.

Lemma succeeds_good r ops r' : succeeds r ops r' -> Forall op_plain ops -> solved r = map fst (r_tracer r) ->
  solved r' = map fst (r_tracer r') /\ map fst (r_tracer r') = (map fst (r_tracer r) ++ concat (map op_labels ops))%list.
Proof.
  intros S. induction S as [r|r op r1 ops r2 E S IH]; intros F G.
  - cbn. rewrite app_nil_r. now split.
  - inversion F; subst. destruct (regstep_good _ _ _ H1 E G) as [G1 L1]. destruct (IH H2 G1) as [G2 L2].
    split; [exact G2|]. rewrite L2, L1. cbn. now rewrite app_assoc.
Qed.

(** ** frozen objects *)
Fixpoint no_try (p : fprog) : Prop :=
  match p with
  | FSkip | FRaise => True
  | FSet _ r => no_try r
  | FCall b r => no_try b /\ no_try r
  | FTry _ _ => False
  end.
Lemma frun_depth p : forall o o', no_try p -> frun p o = (o', false) ->
  f_depth o' = f_depth o /\ (f_frozen o = (f_depth o =? 0) -> f_frozen o' = (f_depth o' =? 0)).
Proof.
  induction p as [|k rest IH| |body IHb rest IHr|body IHb rest IHr]; intros o o' N E; cbn [frun no_try] in *.
  - injection E as <-. now split.
  - destruct (f_frozen o && negb (existsb (String.eqb k) (f_attrs o)))%bool; [discriminate|].
    destruct (IH _ _ N E) as [I1 I2]. now split.
  - discriminate.
  - destruct N as [N1 N2]. destruct (frun body (mkF (f_attrs o) false (f_depth o + 1))) as [o1 [|]] eqn:E1; [discriminate|].
    destruct (IHb _ _ N1 E1) as [B1 _]. cbn in B1. destruct (IHr _ _ N2 E) as [R1 R2]. cbn in R1, R2.
    split; [lia|]. intros _. now apply R2.
  - destruct N.
Qed.
Lemma frun_unfrozen p : forall o, f_frozen o = false -> 1 <= f_depth o ->
  f_frozen (fst (frun p o)) = false /\ 1 <= f_depth (fst (frun p o)).
Proof.
  assert (H : forall p o, f_frozen o = false -> 1 <= f_depth o ->
     f_frozen (fst (frun p o)) = false /\ f_depth o <= f_depth (fst (frun p o))).
  { clear p. induction p as [|k rest IH| |body IHb rest IHr|body IHb rest IHr]; intros o Hf Hd; cbn [frun].
    - split; [exact Hf|cbn; lia].
    - rewrite Hf. cbn [andb]. apply (IH (mkF _ false (f_depth o))); [reflexivity|exact Hd].
    - split; [exact Hf|cbn; lia].
    - destruct (IHb (mkF (f_attrs o) false (f_depth o + 1)) eq_refl) as [B1 B2]; [cbn; lia|].
      destruct (frun body (mkF (f_attrs o) false (f_depth o + 1))) as [o1 [|]]; cbn [fst f_depth] in *; [split; [exact B1|lia]|].
      destruct (IHr (mkF (f_attrs o1) (f_depth o1 - 1 =? 0) (f_depth o1 - 1))) as [R1 R2]; cbn [f_frozen f_depth fst] in *; [apply Z.eqb_neq; lia|lia|].
      split; [exact R1|lia].
    - destruct (IHb o Hf Hd) as [B1 B2]. destruct (frun body o) as [o1 b]. cbn [fst] in *.
      destruct (IHr o1 B1) as [R1 R2]; [lia|]. split; [exact R1|lia]. }
  intros o Hf Hd. destruct (H p o Hf Hd). split; [assumption|lia].
Qed.
Lemma frun_attrs_grow p : forall o k, In k (f_attrs o) -> In k (f_attrs (fst (frun p o))).
Proof.
  induction p as [|k rest IH| |body IHb rest IHr|body IHb rest IHr]; intros o a Ha; cbn [frun].
  - exact Ha.
  - destruct (f_frozen o && _)%bool; [exact Ha|]. apply IH. cbn. destruct (existsb _ _); [exact Ha|]. apply in_or_app. now left.
  - exact Ha.
  - pose proof (IHb (mkF (f_attrs o) false (f_depth o + 1)) a Ha) as B.
    destruct (frun body (mkF (f_attrs o) false (f_depth o + 1))) as [o1 [|]]; [exact B|]. now apply IHr.
  - pose proof (IHb o a Ha) as B. destruct (frun body o) as [o1 b]. now apply IHr.
Qed.
(** code that calls no decorated method *)
Fixpoint outside (p : fprog) : Prop :=
  match p with
  | FSkip | FRaise => True
  | FSet _ r => outside r
  | FCall _ _ => False
  | FTry b r => outside b /\ outside r
  end.
Lemma frun_outside p : forall o, outside p -> f_frozen o = true -> fst (frun p o) = o.
Proof.
  induction p as [|k rest IH| |body IHb rest IHr|body IHb rest IHr]; intros o N Hf; cbn [frun outside] in *.
  - reflexivity.
  - rewrite Hf. cbn [andb]. destruct (existsb (String.eqb k) (f_attrs o)) eqn:E; cbn [negb]; [|reflexivity].
    destruct o as [at_ fr d]. cbn in *. subst fr. now apply IH.
  - reflexivity.
  - destruct N.
  - destruct N as [N1 N2]. pose proof (IHb o N1 Hf) as B. destruct (frun body o) as [o1 b]. cbn in B. subst o1. now apply IHr.
Qed.
