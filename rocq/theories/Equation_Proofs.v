From Coq Require Import String Reals List Bool Lra.
From Verif Require Import Exporter_Model Exporter_Proofs Callback_Proofs Equation_Model Equation_Spec.
Import ListNotations.
Open Scope string_scope.

Lemma NoDup_app_snoc {A} (l : list A) x : NoDup l -> ~ In x l -> NoDup (l ++ [x])%list.
Proof.
  intros N H. induction N as [|y l Hy N IH]; cbn; [repeat constructor; intros []|]. constructor.
  - intros Hin. apply in_app_iff in Hin as [Hin|[->|[]]]; [contradiction|]. apply H. now left.
  - apply IH. intros Hx. apply H. now right.
Qed.
Section P.
Variable T : Type.
Implicit Types (e : equation T) (ops : list (eqop T)).

Record tracks e ops : Prop := {
  tr_keys : map fst (e_terms e) = keys_after T ops;
  tr_nodup : NoDup (keys_after T ops);
  tr_term : forall k, dict_get (e_terms e) k = term_after T ops k;
  tr_label : forall k, dict_get (e_labels e) k = label_after T ops k;
  tr_has : forall k, In k (keys_after T ops) -> exists l, label_after T ops k = Some l /\ In l supported_labels }.

Lemma existsb_in k (l : list string) : existsb (String.eqb k) l = true <-> In k l.
Proof.
  rewrite existsb_exists. split.
  - intros [x [H1 H2]]. apply String.eqb_eq in H2. now subst.
  - intros H. exists k. split; [assumption|apply String.eqb_refl].
Qed.
Lemma has_key_in {A} (d : list (string * A)) k : has_key d k = true <-> In k (map fst d).
Proof.
  unfold has_key. rewrite dict_get_in. destruct (dict_get d k); split; intros; try discriminate; try reflexivity; congruence.
Qed.
Lemma dict_set_keys' {A} (d : list (string * A)) k v :
  map fst (dict_set d k v) = if existsb (String.eqb k) (map fst d) then map fst d else (map fst d ++ [k])%list.
Proof.
  induction d as [|[k' v'] d IH]; cbn; [reflexivity|]. destruct (String.eqb_spec k k') as [->|N]; cbn.
  - reflexivity.
  - rewrite IH. destruct (existsb (String.eqb k) (map fst d)); reflexivity.
Qed.

Lemma label_terms_spec keys : forall e e' l, label_terms T e keys l = (e', None) ->
  e_terms e' = e_terms e /\
  (forall k, dict_get (e_labels e') k = if existsb (String.eqb k) keys then Some l else dict_get (e_labels e) k) /\
  (keys <> [] -> In l supported_labels) /\ (forall k, In k keys -> In k (map fst (e_terms e))).
Proof.
  induction keys as [|a keys IH]; intros e e' l H; cbn [label_terms] in H.
  - injection H as <-. split; [reflexivity|]. split; [reflexivity|]. split; [congruence|intros k []].
  - unfold label_term in H. destruct (has_key (e_terms e) a) eqn:Ha; [|discriminate].
    destruct (existsb (String.eqb l) supported_labels) eqn:El; [|discriminate].
    destruct (IH _ _ _ H) as [H1 [H2 [H3 H4]]]. cbn [e_terms e_labels] in *. split; [exact H1|]. split; [|split].
    + intros k. rewrite H2, dict_get_set. cbn [existsb]. destruct (existsb (String.eqb k) keys); [now rewrite orb_true_r|].
      rewrite orb_false_r. reflexivity.
    + intros _. now apply existsb_in.
    + intros k [->|Hk]; [now apply has_key_in|auto].
Qed.

Lemma step_tracks e ops op e' : tracks e ops -> eqstep T e op = (e', None) -> tracks e' (ops ++ [op])%list.
Proof.
  intros [K N TM LB HS] E.
  assert (FK : keys_after T (ops ++ [op]) = match key_of T op with Some k => if existsb (String.eqb k) (keys_after T ops) then keys_after T ops else (keys_after T ops ++ [k])%list | None => keys_after T ops end).
  { unfold keys_after. now rewrite fold_left_app. }
  assert (FT : forall k, term_after T (ops ++ [op]) k = match op with AddTerm cls t _ suffix => if String.eqb (term_key cls suffix) k then Some t else term_after T ops k | LabelTerms _ _ => term_after T ops k end).
  { intros. unfold term_after. now rewrite fold_left_app. }
  assert (FL : forall k, label_after T (ops ++ [op]) k = match op with AddTerm cls _ l suffix => if String.eqb (term_key cls suffix) k then Some l else label_after T ops k | LabelTerms keys l => if existsb (String.eqb k) keys then Some l else label_after T ops k end).
  { intros. unfold label_after. now rewrite fold_left_app. }
  destruct op as [cls t l suffix|keys l]; cbn [eqstep key_of] in *.
  - unfold add_term, label_term in E. cbn [e_terms e_labels] in E. set (key := term_key cls suffix) in *.
    destruct (has_key (dict_set (e_terms e) key t) key) eqn:Hk; [|discriminate].
    destruct (existsb (String.eqb l) supported_labels) eqn:El; [|discriminate]. injection E as <-. constructor; cbn [e_terms e_labels].
    + rewrite dict_set_keys', K, FK. reflexivity.
    + rewrite FK. destruct (existsb (String.eqb key) (keys_after T ops)) eqn:Ek; [exact N|].
      apply NoDup_app_snoc; [exact N|]. intros Hin. apply existsb_in in Hin. congruence.
    + intros k. rewrite FT, dict_get_set, TM. rewrite (String.eqb_sym k key). reflexivity.
    + intros k. rewrite FL, dict_get_set, LB. rewrite (String.eqb_sym k key). reflexivity.
    + intros k Hin. rewrite FL. destruct (String.eqb_spec key k) as [Ek|Ek].
      * exists l. split; [reflexivity|now apply existsb_in].
      * apply HS. rewrite FK in Hin. destruct (existsb (String.eqb key) (keys_after T ops)); [exact Hin|].
        apply in_app_iff in Hin as [Hin|[Hin|[]]]; [exact Hin|contradiction].
  - destruct (label_terms_spec keys e e' l E) as [H1 [H2 [H3 H4]]]. constructor.
    + rewrite H1, FK. exact K.
    + rewrite FK. exact N.
    + intros k. rewrite FT, H1. apply TM.
    + intros k. rewrite FL, H2, LB. reflexivity.
    + intros k Hin. rewrite FK in Hin. rewrite FL. destruct (existsb (String.eqb k) keys) eqn:Ek; [|now apply HS].
      exists l. split; [reflexivity|]. apply H3. intros ->. discriminate.
Qed.

Lemma run_tracks ops2 : forall ops1 e e', tracks e ops1 -> eqrun T e ops2 = (e', None) -> tracks e' (ops1 ++ ops2)%list.
Proof.
  induction ops2 as [|op r IH]; intros ops1 e e' H E; cbn [eqrun] in E.
  - injection E as <-. now rewrite app_nil_r.
  - destruct (eqstep T e op) as [e1 [x|]] eqn:E1; [discriminate|]. specialize (IH (ops1 ++ [op])%list e1 e').
    rewrite <- app_assoc in IH. apply IH; [|exact E]. now apply (step_tracks e).
Qed.
Lemma empty_tracks : tracks empty_eq [].
Proof. constructor; cbn; try reflexivity; [constructor|intros k []]. Qed.
Lemma run_empty ops e : eqrun T empty_eq ops = (e, None) -> tracks e ops.
Proof. intros H. apply (run_tracks ops [] empty_eq e empty_tracks H). Qed.

Lemma fold_total (res : T -> R) ts a : fold_left (fun f t => (f + res t)%R) ts a = (a + total (map res ts))%R.
Proof. revert a. induction ts as [|t ts IH]; intros a; cbn; [lra|]. rewrite IH. unfold total. cbn. lra. Qed.

Lemma select_spec (res : T -> R) labels sel terms ts :
  NoDup (map fst terms) -> select_from T labels sel terms = Some ts ->
  total (map res ts) = total (map (fun k => match dict_get labels k, dict_get terms k with
                       | Some l, Some t => if existsb (String.eqb l) sel then res t else 0%R
                       | _, _ => 0%R end) (map fst terms)).
Proof.
  revert ts. induction terms as [|[k t] r IH]; intros ts N E; cbn [select_from] in E.
  - injection E as <-. reflexivity.
  - cbn [map fst] in N. inversion N as [|x l Hn Nr]; subst. destruct (dict_get labels k) as [l|] eqn:El; [|discriminate].
    destruct (select_from T labels sel r) as [ts'|] eqn:Er; [|discriminate]. injection E as <-. specialize (IH ts' Nr eq_refl).
    cbn [map fst total fold_right dict_get]. rewrite El, String.eqb_refl. fold (total (map (fun k0 =>
      match dict_get labels k0 with Some l0 => match (if (k0 =? k)%string then Some t else dict_get r k0) with Some t0 => if existsb (String.eqb l0) sel then res t0 else 0%R | None => 0%R end | None => 0%R end) (map fst r))).
    assert (X : map (fun k0 => match dict_get labels k0 with Some l0 => match (if (k0 =? k)%string then Some t else dict_get r k0) with Some t0 => if existsb (String.eqb l0) sel then res t0 else 0%R | None => 0%R end | None => 0%R end) (map fst r) =
                map (fun k0 => match dict_get labels k0 with Some l0 => match dict_get r k0 with Some t0 => if existsb (String.eqb l0) sel then res t0 else 0%R | None => 0%R end | None => 0%R end) (map fst r)).
    { apply map_ext_in. intros k0 H0. destruct (String.eqb_spec k0 k) as [->|]; [contradiction|reflexivity]. }
    rewrite X, <- IH. destruct (existsb (String.eqb l) sel); unfold total; cbn; lra.
Qed.
Lemma select_total labels sel (terms : list (string * T)) :
  (forall k, In k (map fst terms) -> dict_get labels k <> None) -> exists ts, select_from T labels sel terms = Some ts.
Proof.
  induction terms as [|[k t] r IH]; intros H; cbn [select_from]; [now exists []|].
  destruct (dict_get labels k) as [l|] eqn:E; [|exfalso; apply (H k); [now left|exact E]].
  destruct IH as [ts ->]; [intros k' Hk'; apply H; now right|]. eexists. reflexivity.
Qed.

Lemma residual_spec (res : T -> R) ops e sel : eqrun T empty_eq ops = (e, None) ->
  residual T res e sel = Some (sum_of_terms T res ops (selected sel)).
Proof.
  intros E. apply run_empty in E as [K N TM LB HS]. unfold residual, select_terms.
  destruct (select_total (e_labels e) (selected sel) (e_terms e)) as [ts Hts].
  { intros k Hin. rewrite LB. rewrite K in Hin. destruct (HS k Hin) as [l [-> _]]. discriminate. }
  rewrite Hts, fold_total. f_equal. rewrite (select_spec res (e_labels e) (selected sel) (e_terms e) ts) by (try rewrite K; assumption).
  unfold sum_of_terms. rewrite K. rewrite Rplus_0_l. f_equal. apply map_ext. intros k. now rewrite LB, TM.
Qed.
End P.

(** sums over selections *)
Lemma total_plus {A} (f g : A -> R) l : total (map (fun x => f x + g x)%R l) = (total (map f l) + total (map g l))%R.
Proof. induction l as [|a l IH]; cbn; [lra|]. unfold total in *. cbn. rewrite IH. lra. Qed.
Lemma total_zero {A} (l : list A) : total (map (fun _ => 0%R) l) = 0%R.
Proof. induction l as [|a l IH]; cbn; [reflexivity|]. unfold total in *. cbn. rewrite IH. lra. Qed.
Lemma sum_select_app T (res : T -> R) ops s1 s2 : (forall l, In l s1 -> In l s2 -> False) ->
  sum_of_terms T res ops (s1 ++ s2) = (sum_of_terms T res ops s1 + sum_of_terms T res ops s2)%R.
Proof.
  intros D. unfold sum_of_terms. rewrite <- total_plus. f_equal. apply map_ext. intros k.
  destruct (label_after T ops k) as [l|]; [|lra]. destruct (term_after T ops k) as [t|]; [|lra]. rewrite existsb_app.
  destruct (existsb (String.eqb l) s1) eqn:E1; destruct (existsb (String.eqb l) s2) eqn:E2; cbn; try lra.
  apply existsb_in in E1. apply existsb_in in E2. destruct (D l E1 E2).
Qed.
Lemma sum_select_nil T (res : T -> R) ops : sum_of_terms T res ops [] = 0%R.
Proof.
  unfold sum_of_terms. transitivity (total (map (fun _ : string => 0%R) (keys_after T ops))); [|apply total_zero]. f_equal. apply map_ext. intros k.
  destruct (label_after T ops k); [|reflexivity]. destruct (term_after T ops k); reflexivity.
Qed.

(** ** Equations built by adding terms with distinct keys *)
Section Adds.
Variable T : Type.
Definition adding := (string * T * string * option string)%type.
Definition ad_key (a : adding) : string := let '(cls, _, _, suffix) := a in term_key cls suffix.
Definition ad_term (a : adding) : T := let '(_, t, _, _) := a in t.
Definition ad_label (a : adding) : string := let '(_, _, l, _) := a in l.
Definition ad_op (a : adding) : eqop T := let '(cls, t, l, suffix) := a in AddTerm cls t l suffix.

Lemma adds_run ads : forall e, Forall (fun a => In (ad_label a) supported_labels) ads -> exists e', eqrun T e (map ad_op ads) = (e', None).
Proof.
  induction ads as [|[[[cls t] l] suffix] ads IH]; intros e F; cbn [map eqrun ad_op]; [now exists e|].
  inversion F as [|x y Hl F']; subst. cbn [ad_label] in Hl. cbn [eqstep]. unfold add_term, label_term. cbn [e_terms e_labels].
  assert (Hk : has_key (dict_set (e_terms e) (term_key cls suffix) t) (term_key cls suffix) = true).
  { unfold has_key. rewrite dict_get_set, String.eqb_refl. reflexivity. }
  rewrite Hk. apply existsb_in in Hl. rewrite Hl. apply IH. exact F'.
Qed.

Lemma adds_after (ads : list adding) : NoDup (map ad_key ads) ->
  keys_after T (map ad_op ads) = map ad_key ads /\
  forall a, In a ads -> term_after T (map ad_op ads) (ad_key a) = Some (ad_term a) /\ label_after T (map ad_op ads) (ad_key a) = Some (ad_label a).
Proof.
  induction ads as [|b ads IH] using rev_ind; intros N; [split; [reflexivity|intros a []]|].
  rewrite map_app in N. cbn [map] in N. assert (N1 : NoDup (map ad_key ads) /\ ~ In (ad_key b) (map ad_key ads)).
  { apply NoDup_remove in N. rewrite app_nil_r in N. exact N. }
  destruct N1 as [N1 N2]. destruct (IH N1) as [K A]. rewrite map_app. cbn [map].
  destruct b as [[[cls t] l] suffix]. cbn [ad_op ad_key] in *. split.
  - unfold keys_after in *. rewrite fold_left_app, K. cbn [fold_left key_of].
    destruct (existsb (String.eqb (term_key cls suffix)) (map ad_key ads)) eqn:E; [apply existsb_in in E; contradiction|]. now rewrite map_app.
  - intros a Ha. unfold term_after, label_after in *. rewrite !fold_left_app. cbn [fold_left].
    destruct (String.eqb_spec (term_key cls suffix) (ad_key a)) as [E|E].
    + apply in_app_iff in Ha as [Ha|[<-|[]]]; [|now split]. exfalso. apply N2. rewrite E. now apply in_map.
    + apply in_app_iff in Ha as [Ha|[<-|[]]]; [now apply A|]. exfalso. now apply E.
Qed.
Lemma adds_sum (res : T -> R) ads sel : NoDup (map ad_key ads) ->
  sum_of_terms T res (map ad_op ads) sel = total (map (fun a => if existsb (String.eqb (ad_label a)) sel then res (ad_term a) else 0%R) ads).
Proof.
  intros N. destruct (adds_after ads N) as [K A]. unfold sum_of_terms. rewrite K, map_map. f_equal. apply map_ext_in.
  intros a Ha. destruct (A a Ha) as [-> ->]. reflexivity.
Qed.
End Adds.

Lemma total_app a b : total (a ++ b)%list = (total a + total b)%R.
Proof. unfold total. induction a as [|x a IH]; cbn; [ring|rewrite IH; ring]. Qed.
Lemma total_concat l : total (concat l) = total (map total l).
Proof. induction l as [|x l IH]; cbn; [reflexivity|]. rewrite total_app, IH. reflexivity. Qed.
