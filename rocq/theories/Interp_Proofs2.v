(** Lemmas about the interpolator cache, file name patterns, the daily search,
    variable lookup and grid interpolation *)
From Coq Require Import String Ascii Sorting.Sorted Permutation.
From Verif Require Import Num Exporter_Model Exporter_Proofs Interp_Model Interp_Spec Interp_Proofs.
Open Scope Qc_scope.

(** ** cache *)
Lemma found_eqb_eq a b : found_eqb a b = true <-> a = b.
Proof.
  destruct a as [[f1 i1] t1], b as [[f2 i2] t2]. unfold found_eqb.
  destruct (String.eqb_spec f1 f2) as [->|N]; [|split; [discriminate|congruence]].
  destruct (Nat.eqb_spec i1 i2) as [->|N]; [|split; [discriminate|congruence]].
  destruct (Qceqb_spec t1 t2) as [->|N]; [tauto|split; [discriminate|congruence]].
Qed.
Section Cache.
Variable find : Qc -> bool -> option found.
Variable reader : string -> nat -> list Qc.
Definition read (k : found) : list Qc := reader (fst (fst k)) (snd (fst k)).
Definition cache_ok (c : cache) : Prop := forall k v, In (k, v) c -> v = read k.
Lemma cache_get_ok c k v : cache_ok c -> cache_get c k = Some v -> v = read k.
Proof.
  induction c as [|[k' v'] c IH]; simpl; [discriminate|]. intros O H.
  destruct (found_eqb k k') eqn:E.
  - apply found_eqb_eq in E. subst k'. injection H as <-. apply O. now left.
  - apply IH; auto. intros k0 v0 H0. apply O. now right.
Qed.
Lemma get_ok c k : cache_ok c ->
  fst (get_from_cache reader c k) = read k /\ cache_ok (snd (get_from_cache reader c k)).
Proof.
  intro O. unfold get_from_cache. destruct (cache_get c k) as [v|] eqn:E; cbn [fst snd].
  - split; auto. eapply cache_get_ok; eauto.
  - split; auto. intros k0 v0 H. apply in_app_or in H. destruct H as [H|[H|[]]]; auto.
    injection H as <- <-. reflexivity.
Qed.
Lemma clean_ok c keep : cache_ok c -> cache_ok (clean_cache c keep).
Proof. intros O k v H. apply filter_In in H. apply O, H. Qed.
Definition uncached (t : Qc) : list Qc + interp_error :=
  match find t true, find t false with
  | Some p, Some n => interp_values t (snd p) (snd n) (read p) (read n)
  | _, _ => inr NoFile
  end.
Lemma call_ok c t : cache_ok c ->
  fst (interp_call find reader c t) = uncached t /\ cache_ok (snd (interp_call find reader c t)).
Proof.
  intro O. unfold interp_call, uncached. destruct (find t true) as [p|]; [|auto]. destruct (find t false) as [n|]; [|auto].
  destruct (get_ok c p O) as [A1 A2]. destruct (get_from_cache reader c p) as [prev c1]. cbn [fst snd] in *.
  destruct (get_ok c1 n A2) as [B1 B2]. destruct (get_from_cache reader c1 n) as [nxt c2]. cbn [fst snd] in *.
  subst. split; [reflexivity|]. now apply clean_ok.
Qed.
Definition keys (c : cache) : list found := map fst c.
Lemma cache_get_none c k : cache_get c k = None -> ~ In k (keys c).
Proof.
  induction c as [|[k' v'] c IH]; simpl; [tauto|]. destruct (found_eqb k k') eqn:E; [discriminate|].
  intros H [G|G]; [|now apply IH]. subst k'. rewrite (proj2 (found_eqb_eq k k) eq_refl) in E. discriminate.
Qed.
Lemma get_nodup c k : NoDup (keys c) -> NoDup (keys (snd (get_from_cache reader c k))).
Proof.
  intro N. unfold get_from_cache. destruct (cache_get c k) as [v|] eqn:E; cbn [fst snd]; auto.
  apply cache_get_none in E. unfold keys. rewrite map_app. simpl.
  apply Permutation_NoDup with (k :: map fst c); [apply Permutation_cons_append|constructor; auto].
Qed.
Lemma clean_nodup c keep : NoDup (keys c) -> NoDup (keys (clean_cache c keep)).
Proof.
  unfold keys, clean_cache. induction c as [|[k v] c IH]; simpl; auto. intro N. inversion N; subst.
  destruct (existsb _ keep); simpl; auto. constructor; auto.
  intro H. apply H1. apply in_map_iff in H. destruct H as ([k' v'] & E & H). simpl in E; subst k'.
  apply filter_In in H. apply in_map_iff. exists (k, v'). tauto.
Qed.
Lemma clean_keys c keep : incl (keys (clean_cache c keep)) keep.
Proof.
  intros k H. unfold keys in H. apply in_map_iff in H. destruct H as ([k' v] & <- & H). apply filter_In in H.
  destruct H as [_ H]. apply existsb_exists in H. destruct H as (x & Hx & E). apply found_eqb_eq in E. simpl in *. congruence.
Qed.
Definition small (c : cache) : Prop := NoDup (keys c) /\ (List.length c <= 2)%nat.
Lemma call_small c t : small c -> small (snd (interp_call find reader c t)).
Proof.
  intros [N L]. unfold interp_call. destruct (find t true) as [p|]; [|split; auto]. destruct (find t false) as [n|]; [|split; auto].
  pose proof (get_nodup c p N) as N1. destruct (get_from_cache reader c p) as [prev c1]. cbn [fst snd] in *.
  pose proof (get_nodup c1 n N1) as N2. destruct (get_from_cache reader c1 n) as [nxt c2]. cbn [fst snd] in *.
  split; [now apply clean_nodup|].
  pose proof (NoDup_incl_length (clean_nodup c2 [p; n] N2) (clean_keys c2 [p; n])) as G.
  unfold keys in G. rewrite map_length in G. exact G.
Qed.
Lemma run_inv ts c : cache_ok c -> small c -> cache_ok (interp_run find reader c ts) /\ small (interp_run find reader c ts).
Proof.
  revert c. induction ts as [|t ts IH]; intros c O S; [now split|]. simpl. apply IH.
  - apply call_ok, O. - now apply call_small.
Qed.
End Cache.

(** ** values *)
Lemma combine_nth_error {A B} (l : list A) (m : list B) i x y :
  nth_error l i = Some x -> nth_error m i = Some y -> nth_error (combine l m) i = Some (x, y).
Proof.
  revert m i. induction l as [|a l IH]; intros m i Hx Hy; destruct i, m; simpl in *; try discriminate; auto. congruence.
Qed.
Lemma map_combine_fst {A B} (l : list A) (m : list B) : List.length l = List.length m -> map fst (combine l m) = l.
Proof. revert m; induction l; intros [|b m] H; simpl in *; auto; try discriminate. f_equal. apply IHl. lia. Qed.

Lemma tol_pos : 0 < TOL. Proof. unfold TOL, qq. qc. Qed.

Lemma interp_values_ok t tp tn prev nxt : tp < tn -> tp <= t -> t <= tn ->
  exists alpha, alpha * (tn - tp) = t - tp /\ 0 <= alpha /\ alpha <= 1 /\
    interp_values t tp tn prev nxt = inl (map (fun pn => (1 - alpha) * fst pn + alpha * snd pn) (combine prev nxt)).
Proof.
  intros H1 H2 H3. set (alpha := (t - tp) / (tn - tp)). exists alpha.
  assert (P : 0 < tn - tp) by qc. assert (N : tn - tp <> 0) by (intro E; rewrite E in P; discriminate).
  assert (E : alpha * (tn - tp) = t - tp) by (unfold alpha; field; auto).
  assert (A0 : 0 <= alpha) by (unfold alpha; apply qc_le_div; auto; qc).
  assert (A1 : alpha <= 1) by (unfold alpha; apply qc_div_le; auto; qc).
  split; [exact E|]. split; [exact A0|]. split; [exact A1|].
  unfold interp_values. destruct (Qceqb_spec (tn - tp) 0) as [Z|_]; [contradiction|]. fold alpha.
  pose proof tol_pos.
  destruct (Qcleb_spec (0 - TOL) alpha) as [|C]; [|exfalso; apply C; qc].
  destruct (Qcleb_spec alpha (1 + TOL)) as [|C]; [|exfalso; apply C; qc].
  reflexivity.
Qed.
Lemma interp_between alpha p n : 0 <= alpha -> alpha <= 1 ->
  qmin p n <= (1 - alpha) * p + alpha * n /\ (1 - alpha) * p + alpha * n <= qmax p n.
Proof.
  intros A B. unfold qmin, qmax.
  replace ((1 - alpha) * p + alpha * n) with (p + alpha * (n - p)) by ring.
  destruct (Qcleb_spec p n) as [C|C].
  - assert (0 <= alpha * (n - p)) by (apply qc_mult_nonneg; auto; qc).
    assert (0 <= (1 - alpha) * (n - p)) by (apply qc_mult_nonneg; qc).
    replace ((1 - alpha) * (n - p)) with ((n - p) - alpha * (n - p)) in H0 by ring. split; qc.
  - apply Qcnot_le_lt in C.
    assert (0 <= alpha * (p - n)) by (apply qc_mult_nonneg; auto; qc).
    assert (0 <= (1 - alpha) * (p - n)) by (apply qc_mult_nonneg; qc).
    replace ((1 - alpha) * (p - n)) with ((p - n) - alpha * (p - n)) in H0 by ring.
    replace (alpha * (n - p)) with (- (alpha * (p - n))) by ring. split; qc.
Qed.

(** ** file name patterns *)
Open Scope string_scope.

Lemma digit_val_digit n : digit_val (digit n) = Some (n mod 10)%nat.
Proof.
  unfold digit. assert (H : (n mod 10 < 10)%nat) by (apply Nat.mod_upper_bound; lia).
  set (d := (n mod 10)%nat) in *. clearbody d. do 10 (destruct d as [|d]; [reflexivity|]). lia.
Qed.
Lemma match_two n r : (n < 100)%nat -> match_digits 2 0 (two_digits n ++ r) = Some (n, r).
Proof.
  intro H. unfold two_digits. cbn [append match_digits]. rewrite !digit_val_digit. cbn [match_digits].
  do 2 f_equal. rewrite (Nat.mod_small (n / 10)); [|apply Nat.div_lt_upper_bound; lia].
  pose proof (Nat.div_mod n 10 ltac:(lia)). lia.
Qed.
Lemma match_four n r : (n < 10 * (10 * 100))%nat -> match_digits 4 0 (four_digits n ++ r) = Some (n, r).
Proof.
  intro H. unfold four_digits. cbn [append match_digits]. rewrite !digit_val_digit. cbn [match_digits].
  do 2 f_equal.
  replace (n / 1000)%nat with (n / 10 / 10 / 10)%nat by (rewrite !Nat.div_div by lia; reflexivity).
  replace (n / 100)%nat with (n / 10 / 10)%nat by (rewrite !Nat.div_div by lia; reflexivity).
  pose proof (Nat.div_mod n 10 ltac:(lia)). pose proof (Nat.div_mod (n / 10) 10 ltac:(lia)). pose proof (Nat.div_mod (n / 10 / 10) 10 ltac:(lia)).
  set (a := (n / 10)%nat) in *. set (b := (a / 10)%nat) in *. set (c := (b / 10)%nat) in *.
  assert (c < 10)%nat.
  { unfold c. apply Nat.div_lt_upper_bound; [lia|]. unfold b. apply Nat.div_lt_upper_bound; [lia|].
    unfold a. apply Nat.div_lt_upper_bound; lia. }
  rewrite (Nat.mod_small c) by auto. lia.
Qed.
Lemma lit_self c : lit_matches c c = true.
Proof. unfold lit_matches. now rewrite Ascii.eqb_refl, orb_true_r. Qed.
Definition value_of (y m d : nat) (t : tok) : nat := match t with TYear => y | TMonth => m | _ => d end.
Lemma match_format p y m d r : (y < 10 * (10 * 100))%nat -> (m < 100)%nat -> (d < 100)%nat ->
  match_here p (format_pattern p y m d ++ r) = Some (map (value_of y m d) (labels p), r).
Proof.
  intros Hy Hm Hd. induction p as [|t p IH]; [reflexivity|].
  destruct t as [c| | |]; cbn [format_pattern match_here labels filter].
  - cbn [append]. rewrite lit_self. exact IH.
  - rewrite sapp_assoc, match_four by auto. rewrite IH. reflexivity.
  - rewrite sapp_assoc, match_two by auto. rewrite IH. reflexivity.
  - rewrite sapp_assoc, match_two by auto. rewrite IH. reflexivity.
Qed.
Lemma match_here_empty p : p <> [] -> match_here p "" = None.
Proof. destruct p as [|[c| | |] p]; intro H; [congruence| | | |]; reflexivity. Qed.
Lemma lookup_combine want l y m d v : (forall t, In t l -> want t = true -> value_of y m d t = v) ->
  existsb want l = true -> lookup_label want (combine l (map (value_of y m d) l)) = Some v.
Proof.
  induction l as [|t l IH]; simpl; [discriminate|]. intros A E.
  destruct (existsb want l) eqn:El.
  - rewrite IH; auto.
  - assert (N : lookup_label want (combine l (map (value_of y m d) l)) = None).
    { clear IH A E. induction l as [|u l IH]; simpl in *; auto. apply orb_false_elim in El. destruct El as [E1 E2].
      now rewrite IH, E1. }
    rewrite N. rewrite orb_false_r in E. rewrite E. f_equal. apply A; auto.
Qed.
Lemma labels_no_lit p t : In t (labels p) -> match t with Lit _ => False | _ => True end.
Proof. unfold labels. intro H. apply filter_In in H. destruct t; [easy| | |]; exact I. Qed.
Lemma parse_format p y m d : (y < 10 * (10 * 100))%nat -> (m < 100)%nat -> (d < 100)%nat ->
  existsb is_year p = true -> existsb is_month p = true -> existsb is_day p = true ->
  parse_date p (format_pattern p y m d) = Some (y, m, d).
Proof.
  intros Hy Hm Hd Py Pm Pd. unfold parse_date.
  assert (NE : p <> []) by (destruct p; [discriminate|congruence]).
  pose proof (match_format p y m d "" Hy Hm Hd) as M. rewrite sapp_nil_r in M.
  assert (F : findall (S (String.length (format_pattern p y m d))) p (format_pattern p y m d) = [map (value_of y m d) (labels p)]).
  { cbn [findall]. rewrite M. destruct p as [|t p]; [congruence|]. f_equal.
    destruct (String.length _); [reflexivity|]. cbn [findall]. rewrite match_here_empty by auto. reflexivity. }
  rewrite F.
  assert (L : forall want, (forall t, want t = true -> match t with Lit _ => False | _ => True end) ->
              existsb want p = true -> existsb want (labels p) = true).
  { intros want W E. apply existsb_exists in E. destruct E as (t & Ht & Wt). apply existsb_exists. exists t. split; auto.
    unfold labels. apply filter_In. split; auto. specialize (W t Wt). destruct t; tauto. }
  rewrite (lookup_combine is_year _ y m d y), (lookup_combine is_month _ y m d m), (lookup_combine is_day _ y m d d); auto;
    try (apply L; auto); intros [c| | |]; simpl; intros; try discriminate; auto.
Qed.

(** ** daily search *)
Open Scope Qc_scope.
Definition daily_le (a b : string * Qc) := snd a <= snd b.
Lemma insert_daily_perm f l : Permutation (insert_daily f l) (f :: l).
Proof.
  induction l as [|g r IH]; simpl; auto. destruct (Qcleb _ _); auto.
  etransitivity; [apply perm_skip, IH|]. apply perm_swap.
Qed.
Lemma sort_daily_perm l : Permutation (sort_daily l) l.
Proof. induction l as [|f l IH]; simpl; auto. etransitivity; [apply insert_daily_perm|]. now apply perm_skip. Qed.
Lemma insert_daily_sorted f l : StronglySorted daily_le l -> StronglySorted daily_le (insert_daily f l).
Proof.
  induction l as [|g r IH]; simpl; intro S; [repeat constructor|].
  inversion S as [|? ? S1 S2]; subst.
  destruct (Qcleb_spec (snd f) (snd g)) as [L|L].
  - constructor; auto. constructor; auto. rewrite Forall_forall in *. intros h Hh.
    specialize (S2 h Hh). unfold daily_le in *. eapply Qcle_trans; eauto.
  - constructor; auto. rewrite Forall_forall in *. intros h Hh.
    apply (Permutation_in _ (insert_daily_perm f r)) in Hh. destruct Hh as [<-|Hh]; auto.
    unfold daily_le. apply Qclt_le_weak. now apply Qcnot_le_lt.
Qed.
Lemma sort_daily_sorted l : StronglySorted daily_le (sort_daily l).
Proof. induction l; simpl; [constructor|now apply insert_daily_sorted]. Qed.
Lemma sort_daily_increasing l : NoDup (map snd l) -> increasing (map snd (sort_daily l)).
Proof.
  intro N. pose proof (sort_daily_sorted l) as S.
  assert (N' : NoDup (map snd (sort_daily l))).
  { eapply Permutation_NoDup; [|exact N]. apply Permutation_map. symmetry. apply sort_daily_perm. }
  clear N. induction (sort_daily l) as [|f r IH]; simpl in *; [constructor|].
  inversion S as [|? ? S1 S2]; inversion N' as [|? ? N1 N2]; subst. constructor; [now apply IH|].
  rewrite Forall_forall in *. intros x Hx. apply in_map_iff in Hx. destruct Hx as (g & <- & Hg).
  specialize (S2 g Hg). unfold daily_le in S2. apply Qcle_lt_or_eq in S2. destruct S2 as [L|E]; auto.
  exfalso. apply N1. rewrite E. now apply in_map.
Qed.
Lemma daily_sorted_find l t p : increasing (map snd l) ->
  match daily_find l t p with
  | Some (n, k, x) => k = O /\ In (n, x) l /\ nearest_stamp p (fun y => In y (map snd l)) (t + TOL) x
  | None => no_stamp p (fun y => In y (map snd l)) (t + TOL)
  end.
Proof.
  intro S. pose proof (fts_some (map snd l) t p) as A. pose proof (fts_none (map snd l) t p) as B.
  unfold find_time_stamp in A, B. unfold daily_find. set (i := (Z.of_nat _ - _)%Z) in *.
  destruct (Z.ltb_spec i 0) as [L|L]; [now apply B|]. rewrite map_length in *.
  destruct (Z.leb_spec (Z.of_nat (List.length l)) i) as [G|G].
  - replace (nth_error l (Z.to_nat i)) with (@None (string * Qc)); [now apply B|].
    symmetry. apply nth_error_None. lia.
  - destruct (nth_error l (Z.to_nat i)) as [[n x]|] eqn:E; [|apply nth_error_None in E; lia].
    destruct (A _ S eq_refl) as (x' & Hx & G'). rewrite nth_error_map, E in Hx. simpl in Hx. injection Hx as <-.
    split; auto. split; [eapply nth_error_In; eauto|exact G'].
Qed.

(** ** variable lookup *)
Lemma first_match_some sn ln vn vars n : first_match sn ln vn vars = Some n <->
  exists before v after, vars = (before ++ v :: after)%list /\ v_name v = n /\ var_matches sn ln vn v = true /\
    forallb (fun u => negb (var_matches sn ln vn u)) before = true.
Proof.
  revert n. induction vars as [|v r IH]; intro n; simpl.
  - split; [discriminate|]. intros ([|? ?] & v & a & H & _); discriminate.
  - destruct (var_matches sn ln vn v) eqn:E.
    + split.
      * intro H. injection H as <-. exists [], v, r. auto.
      * intros ([|b before] & u & a & H & <- & M & F); simpl in *; injection H; intros; subst; auto.
        rewrite E in F. discriminate.
    + rewrite IH. split.
      * intros (b & u & a & -> & N & M & F). exists (v :: b)%list, u, a. simpl. rewrite E. auto.
      * intros ([|b before] & u & a & H & N & M & F); simpl in *; injection H; intros; subst; [congruence|].
        apply andb_prop in F. exists before, u, a. tauto.
Qed.
Lemma first_match_none sn ln vn vars : first_match sn ln vn vars = None <-> forall v, In v vars -> var_matches sn ln vn v = false.
Proof.
  induction vars as [|v r IH]; simpl; [tauto|]. destruct (var_matches sn ln vn v) eqn:E.
  - split; [discriminate|]. intro H. rewrite H in E; auto; discriminate.
  - rewrite IH. split; [intros H u [<-|Hu]; auto|auto].
Qed.

(** ** grid interpolation *)
Lemma qsum_app a b : qsum (a ++ b)%list = qsum a + qsum b.
Proof. induction a as [|x a IH]; simpl; [ring|]. unfold qsum in *. rewrite IH. ring. Qed.
Lemma weights_sum b : qsum (weights b) = 1.
Proof. unfold weights. rewrite qsum_app. simpl. ring. Qed.
Lemma combine_app {A B} (a c : list A) (b d : list B) : List.length a = List.length b ->
  combine (a ++ c)%list (b ++ d)%list = (combine a b ++ combine c d)%list.
Proof. revert b; induction a; intros [|y b] H; simpl in *; try discriminate; auto. f_equal. apply IHa. lia. Qed.
Lemma dot_app a c b d : List.length a = List.length b -> dot (a ++ c)%list (b ++ d)%list = dot a b + dot c d.
Proof. intro H. unfold dot. rewrite combine_app by auto. now rewrite map_app, qsum_app. Qed.
Lemma dot_const c a b : List.length a = List.length b -> (forall x, In x a -> x = c) -> dot a b = c * qsum b.
Proof.
  revert b. induction a as [|x a IH]; intros [|y b] H A; simpl in *; try discriminate; [unfold dot; simpl; ring|].
  unfold dot in *. simpl. rewrite IH; auto. rewrite (A x) by auto. ring.
Qed.
Lemma dot_lower m a b : List.length a = List.length b -> (forall w, In w b -> 0 <= w) -> (forall x, In x a -> m <= x) -> m * qsum b <= dot a b.
Proof.
  revert b. induction a as [|x a IH]; intros [|y b] H W A; simpl in *; try discriminate.
  - unfold dot; simpl. qc.
  - unfold dot in *. simpl. specialize (IH b ltac:(lia)). 
    assert (I : m * qsum b <= qsum (map (fun p => fst p * snd p) (combine a b))) by (apply IH; auto).
    assert (J : 0 <= (x - m) * y). { apply qc_mult_nonneg; [|auto]. assert (m <= x) by auto. qc. }
    replace ((x - m) * y) with (x * y - m * y) in J by ring.
    replace (m * (y + qsum b)) with (m * y + m * qsum b) by ring. qc.
Qed.
Lemma dot_neg a b : dot (map Qcopp a) b = - dot a b.
Proof.
  revert b. unfold dot. induction a as [|x a IH]; intros [|y b]; simpl; try ring. rewrite IH. ring.
Qed.
Lemma dot_upper m a b : List.length a = List.length b -> (forall w, In w b -> 0 <= w) -> (forall x, In x a -> x <= m) -> dot a b <= m * qsum b.
Proof.
  intros H W A. pose proof (dot_lower (- m) (map Qcopp a) b) as G. rewrite map_length in G. specialize (G H W).
  assert (X : - m * qsum b <= dot (map Qcopp a) b).
  { apply G. intros x Hx. apply in_map_iff in Hx. destruct Hx as (z & <- & Hz). specialize (A z Hz). qc. }
  rewrite dot_neg in X. replace (- m * qsum b) with (- (m * qsum b)) in X by ring. qc.
Qed.
Lemma dot_add f g (vs : list (list Qc)) w : dot (map (fun v => f v + g v) vs) w = dot (map f vs) w + dot (map g vs) w.
Proof. revert w. unfold dot. induction vs as [|v vs IH]; intros [|y w]; simpl; try ring. rewrite IH. ring. Qed.
Lemma dot_scale c f (vs : list (list Qc)) w : dot (map (fun v => c * f v) vs) w = c * dot (map f vs) w.
Proof. revert w. unfold dot. induction vs as [|v vs IH]; intros [|y w]; simpl; try ring. rewrite IH. ring. Qed.
Lemma dot_ext f g (vs : list (list Qc)) w : (forall v, In v vs -> f v = g v) -> dot (map f vs) w = dot (map g vs) w.
Proof. intro H. f_equal. now apply map_ext_in. Qed.

(** affine data *)
Lemma linear_dot a : forall off vs w x,
  (forall v, In v vs -> (off + List.length a <= List.length v)%nat) -> (off + List.length a <= List.length x)%nat ->
  (forall i, (off <= i < off + List.length a)%nat -> coord i x = dot (map (coord i) vs) w) ->
  dot (map (fun v => dot a (skipn off v)) vs) w = dot a (skipn off x).
Proof.
  induction a as [|c a IH]; intros off vs w x Hv Hx C.
  - unfold dot at 2 3. simpl. rewrite (dot_ext _ (fun _ => 0 * 0) vs w) by (intros; ring).
    rewrite (dot_scale 0 (fun _ => 0)). ring.
  - assert (K : forall v, (off + List.length (c :: a) <= List.length v)%nat -> dot (c :: a) (skipn off v) = c * coord off v + dot a (skipn (S off) v)).
    { clear. intros v. revert v. induction off as [|k IH]; intros v L; destruct v as [|y v]; simpl in L; try lia.
      - unfold dot, coord. simpl. ring.
      - change (skipn (S k) (y :: v)) with (skipn k v). change (skipn (S (S k)) (y :: v)) with (skipn (S k) v).
        change (coord (S k) (y :: v)) with (coord k v). apply IH. simpl. lia. }
    rewrite (dot_ext _ (fun v => c * coord off v + dot a (skipn (S off) v)) vs w) by (intros v Hv'; apply K; auto).
    rewrite dot_add, dot_scale. rewrite (K x Hx). rewrite (C off) by (simpl; lia). f_equal.
    apply IH; simpl in *.
    + intros v Hv'. specialize (Hv v Hv'). lia.
    + lia.
    + intros i Hi. apply C. lia.
Qed.
Lemma affine_dot d c a vs w x : List.length a = d -> List.length w = List.length vs -> List.length x = d -> (forall v, In v vs -> List.length v = d) ->
  qsum w = 1 -> combination d vs w x -> dot (map (affine c a) vs) w = affine c a x.
Proof.
  intros La Lw Lx Lv S C. unfold affine. rewrite dot_add. f_equal.
  - rewrite (dot_const c); [rewrite S; ring|now rewrite map_length|].
    intros y Hy. apply in_map_iff in Hy. destruct Hy as (v & <- & _). reflexivity.
  - pose proof (linear_dot a 0 vs w x) as L. simpl in L. apply L.
    + intros v Hv. rewrite (Lv v Hv). lia. + lia. + intros i Hi. apply C. lia.
Qed.
