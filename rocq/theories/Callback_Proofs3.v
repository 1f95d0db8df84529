From Coq Require Import String Ascii Sorting.Sorted.
From Verif Require Import Num Exporter_Model Exporter_Proofs Callback_Model Callback_Spec Callback_Proofs2.
Open Scope string_scope.
Open Scope Z_scope.

(** *** window *)
Lemma opt_truthy_id o : nonzero_bound o -> opt_truthy o = o.
Proof.
  intros H. destruct o as [x|]; [|reflexivity]. cbn. unfold truthy.
  destruct (Qceqb_spec x (qz 0)) as [->|]; [exfalso; now apply H|reflexivity].
Qed.
Lemma in_window_b s e t : nonzero_bound s -> nonzero_bound e -> in_window s e t = window_b s e t.
Proof.
  intros Hs He. unfold in_window. rewrite !opt_truthy_id by assumption. unfold window_b.
  rewrite negb_orb. f_equal.
  - destruct s as [s|]; [|reflexivity]. destruct (Qcltb_spec t s), (Qcleb_spec s t); cbn; try reflexivity; exfalso; qc.
  - destruct e as [e|]; [|reflexivity]. destruct (Qcltb_spec e t), (Qcleb_spec t e); cbn; try reflexivity; exfalso; qc.
Qed.
Lemma window_b_spec s e t : window_b s e t = true <-> window s e t.
Proof.
  unfold window_b, window. rewrite andb_true_iff. split.
  - intros [H1 H2]. split; intros x ->; [destruct (Qcleb_spec x t)|destruct (Qcleb_spec t x)]; congruence || assumption.
  - intros [H1 H2]. split.
    + destruct s as [s|]; [|reflexivity]. destruct (Qcleb_spec s t) as [|N]; [reflexivity|]. exfalso. specialize (H1 s eq_refl). qc.
    + destruct e as [e|]; [|reflexivity]. destruct (Qcleb_spec t e) as [|N]; [reflexivity|]. exfalso. specialize (H2 e eq_refl). qc.
Qed.

(** *** life of a callback *)
Definition accepts (cb : callback) (e : entry) : bool := in_window (cb_start cb) (cb_end cb) (e_time e).

Lemma evaluate_open cb f L e index : good_cfg (cb_cfg cb) -> complete (cb_cfg cb) e -> cb_hdf5 cb = true ->
  cb_init cb = true -> holds (cb_cfg cb) f L -> accepts cb e = true ->
  match position index (length L) with
  | Some p => exists f', cb_evaluate cb f (e_time e) (Tuple (map Some (e_vals e))) index = (cb, f', None)
              /\ holds (cb_cfg cb) f' (put L p e)
  | None => exists err, snd (cb_evaluate cb f (e_time e) (Tuple (map Some (e_vals e))) index) = Some err
  end.
Proof.
  intros G C HH HI H W. unfold accepts in W. unfold cb_evaluate. rewrite W, andb_false_r, HH. unfold push_to_hdf5. rewrite HI.
  pose proof (export_holds (cb_cfg cb) f L e index G C H) as K.
  destruct (position index (length L)) as [p|].
  - destruct K as (f' & E & H'). rewrite E. exists f'. auto.
  - destruct K as (err & E & _). destruct (diag_export _ _ _ _ _) as [f' e']. exists err. exact E.
Qed.

Lemma evaluate_first cb f e index : good_cfg (cb_cfg cb) -> complete (cb_cfg cb) e -> cb_hdf5 cb = true ->
  cb_init cb = false -> cb_create cb = true -> accepts cb e = true -> (index = None \/ index = Some 0) ->
  exists f', cb_evaluate cb f (e_time e) (Tuple (map Some (e_vals e))) index = (cb_initialised cb, f', None)
             /\ holds (cb_cfg cb) f' [e].
Proof.
  intros G C HH HI HC W HX. unfold accepts in W. unfold cb_evaluate. rewrite W, andb_false_r, HH. unfold push_to_hdf5.
  rewrite HI, HC. destruct (create_holds (cb_cfg cb) G) as (f0 & E0 & H0). rewrite E0.
  pose proof (export_holds (cb_cfg cb) f0 [] e index G C H0) as K.
  change (cb_cfg (cb_initialised cb)) with (cb_cfg cb).
  assert (P : position index (length (@nil entry)) = Some 0%nat) by (destruct HX; subst; reflexivity).
  rewrite P in K. destruct K as (f' & E & H'). rewrite E. exists f'. auto.
Qed.

Lemma evaluate_skip cb f e index : accepts cb e = false ->
  cb_evaluate cb f (e_time e) (Tuple (map Some (e_vals e))) index = (cb, f, None).
Proof. intros W. unfold cb_evaluate. unfold accepts in W. now rewrite W. Qed.


Lemma run_open es cb f L : good_cfg (cb_cfg cb) -> Forall (complete (cb_cfg cb)) es -> cb_hdf5 cb = true ->
  cb_init cb = true -> holds (cb_cfg cb) f L ->
  exists f', run_callback cb f (appends es) = (cb, f', None) /\ holds (cb_cfg cb) f' (L ++ filter (accepts cb) es)%list.
Proof.
  revert f L. induction es as [|e es IH]; intros f L G C HH HI H.
  - exists f. cbn. rewrite app_nil_r. auto.
  - inversion C; subst. cbn [appends map run_callback]. cbn [filter]. destruct (accepts cb e) eqn:W.
    + pose proof (evaluate_open cb f L e None G H2 HH HI H W) as K. cbn [position] in K. destruct K as (f' & E & H').
      rewrite E. rewrite put_append in H'. destruct (IH f' (L ++ [e])%list G H3 HH HI H') as (f2 & E2 & H2').
      exists f2. split; [exact E2|]. rewrite <- app_assoc in H2'. exact H2'.
    + rewrite evaluate_skip by exact W. now apply IH.
Qed.

Lemma run_fresh es cb f : good_cfg (cb_cfg cb) -> Forall (complete (cb_cfg cb)) es -> cb_hdf5 cb = true ->
  cb_init cb = false -> cb_create cb = true ->
  exists cb' f', run_callback cb f (appends es) = (cb', f', None) /\
    (filter (accepts cb) es = [] -> f' = f) /\
    (filter (accepts cb) es <> [] -> holds (cb_cfg cb) f' (filter (accepts cb) es)).
Proof.
  induction es as [|e es IH]; intros G C HH HI HC.
  - exists cb, f. cbn. split; [reflexivity|]. split; [auto|congruence].
  - inversion C; subst. cbn [appends map run_callback]. cbn [filter]. destruct (accepts cb e) eqn:W.
    + destruct (evaluate_first cb f e None G H1 HH HI HC W (or_introl eq_refl)) as (f1 & E1 & H1').
      rewrite E1. destruct (run_open es (cb_initialised cb) f1 [e]) as (f2 & E2 & H2'); auto.
      exists (cb_initialised cb), f2. split; [exact E2|]. split; [discriminate|]. intros _. exact H2'.
    + rewrite evaluate_skip by exact W. now apply IH.
Qed.

(** consecutive indices (3D solver): entry [k0 + i] is written by the i-th call *)

Lemma firstn_put L p e : (p <= length L)%nat -> firstn (S p) (put L p e) = (firstn p L ++ [e])%list.
Proof.
  intros H. unfold put. rewrite firstn_app, firstn_firstn, firstn_length.
  rewrite Nat.min_r by lia. replace (S p - Nat.min p (length L))%nat with 1%nat by lia. reflexivity.
Qed.
Lemma skipn_put L p e m : (p <= length L)%nat -> (S p <= m)%nat -> skipn m (put L p e) = skipn m L.
Proof.
  intros H Hm. unfold put. rewrite skipn_app, firstn_length, Nat.min_l by lia.
  rewrite skipn_all2 by (rewrite firstn_length; lia). cbn [app].
  replace (m - p)%nat with (S (m - S p)) by lia.
  change (skipn (S (m - S p)) (e :: skipn (S p) L)) with (skipn (m - S p) (skipn (S p) L)).
  assert (X : forall (l : list entry) a b, skipn a (skipn b l) = skipn (b + a) l).
  { clear. intros l a b. revert l. induction b as [|b IH]; intros l; [reflexivity|]. destruct l; [now rewrite !skipn_nil|]. cbn. apply IH. }
  rewrite X. f_equal. lia.
Qed.
Lemma put_length L p e : (p <= length L)%nat -> length (put L p e) = Nat.max (length L) (S p).
Proof. intros H. unfold put. rewrite app_length, firstn_length. cbn [length]. rewrite skipn_length. lia. Qed.

Lemma run_indexed es cb f L k0 : good_cfg (cb_cfg cb) -> Forall (complete (cb_cfg cb)) es -> cb_hdf5 cb = true ->
  cb_init cb = true -> Forall (fun e => accepts cb e = true) es -> holds (cb_cfg cb) f L -> (k0 <= length L)%nat ->
  exists f', run_callback cb f (indexed k0 es) = (cb, f', None) /\
    holds (cb_cfg cb) f' (firstn k0 L ++ es ++ skipn (k0 + length es) L)%list.
Proof.
  revert f L k0. induction es as [|e es IH]; intros f L k0 G C HH HI W H Hk.
  - exists f. cbn. rewrite Nat.add_0_r, firstn_skipn. auto.
  - inversion C; inversion W; subst. cbn [indexed run_callback].
    pose proof (evaluate_open cb f L e (Some (Z.of_nat k0)) G H2 HH HI H H6) as K.
    assert (P : position (Some (Z.of_nat k0)) (length L) = Some k0).
    { cbn [position]. destruct (Z.ltb_spec (Z.of_nat (length L)) (Z.of_nat k0)); [lia|].
      destruct (Z.leb_spec 0 (Z.of_nat k0)); [now rewrite Nat2Z.id|lia]. }
    rewrite P in K. destruct K as (f' & E & H'). rewrite E.
    destruct (IH f' (put L k0 e) (S k0) G H3 HH HI H7 H') as (f2 & E2 & H2').
    { rewrite put_length by exact Hk. lia. }
    exists f2. split; [exact E2|]. rewrite firstn_put, skipn_put in H2' by lia. cbn [length].
    rewrite <- app_assoc in H2'. cbn [app] in *. replace (k0 + S (length es))%nat with (S k0 + length es)%nat by lia. exact H2'.
Qed.

(** *** accumulators *)
Lemma acc_run_dt vs s : a_dt (acc_run s vs) = a_dt s.
Proof. revert s. induction vs as [|v vs IH]; intros s; [reflexivity|]. cbn. unfold acc_run in IH. now rewrite IH. Qed.
Lemma acc_run_spec vs s o : a_old s = Some o ->
  a_integrant (acc_run s vs) = (a_integrant s + trapezium (a_dt s) (o :: vs))%Qc.
Proof.
  revert s o. induction vs as [|v vs IH]; intros s o H.
  - cbn. rewrite qz_0. ring.
  - unfold acc_run. cbn [fold_left]. fold (acc_run (fst (acc_call s v)) vs).
    rewrite (IH (fst (acc_call s v)) v eq_refl). cbn [acc_call fst a_integrant a_dt]. rewrite H.
    change (trapezium (a_dt s) (o :: v :: vs)) with (a_dt s * ((o + v) / qz 2) + trapezium (a_dt s) (v :: vs))%Qc.
    assert (E : qq 1 2 = (/ qz 2)%Qc) by (apply Qc_is_canon; reflexivity).
    rewrite E. unfold Qcdiv. ring.
Qed.
Lemma acc_value vs dt : a_integrant (acc_run (acc_new dt) vs) = trapezium dt vs.
Proof.
  destruct vs as [|v vs]; [reflexivity|]. unfold acc_run. cbn [fold_left]. fold (acc_run (fst (acc_call (acc_new dt) v)) vs).
  rewrite (acc_run_spec vs (fst (acc_call (acc_new dt) v)) v eq_refl). cbn [acc_call fst a_integrant a_dt acc_new a_old]. rewrite qz_0. ring.
Qed.

(** *** conservation *)
Lemma scalar_run v0 vs : v0 <> qz 0 ->
  run_obs scalar_conservation (Some v0) vs = map (fun v => Some (v, (v - v0) / v0)%Qc) vs.
Proof.
  intros H. induction vs as [|v vs IH]; [reflexivity|]. cbn [run_obs scalar_conservation map].
  destruct (Qceqb_spec v0 (qz 0)); [contradiction|]. now rewrite IH.
Qed.
Lemma minmax_run v0 vs : run_obs minmax_conservation (Some v0) vs =
  map (fun v => (fst v, snd v, qmin (fst v - fst v0)%Qc (qz 0), qmax (snd v - snd v0)%Qc (qz 0))) vs.
Proof. induction vs as [|v vs IH]; [reflexivity|]. cbn [run_obs minmax_conservation map]. now rewrite IH. Qed.

Lemma fold_min_spec l x : (In (fold1 qmin x l) (x :: l)) /\ (forall y, In y (x :: l) -> fold1 qmin x l <= y)%Qc.
Proof.
  unfold fold1. revert x. induction l as [|a l IH]; intros x; cbn [fold_left].
  - split; [now left|]. intros y [<-|[]]. apply Qcle_refl.
  - destruct (IH (qmin x a)) as [H1 H2]. split.
    + destruct H1 as [H1|H1]; [|right; now right]. rewrite <- H1. unfold qmin. destruct (Qcleb x a); [now left|right; now left].
    + assert (K : (fold_left qmin l (qmin x a) <= qmin x a)%Qc) by (apply H2; now left).
      intros y [<-|[<-|Hy]]; [| |apply H2; now right]; (eapply Qcle_trans; [exact K|]);
      unfold qmin; destruct (Qcleb_spec x a); qc.
Qed.
Lemma fold_max_spec l x : (In (fold1 qmax x l) (x :: l)) /\ (forall y, In y (x :: l) -> y <= fold1 qmax x l)%Qc.
Proof.
  unfold fold1. revert x. induction l as [|a l IH]; intros x; cbn [fold_left].
  - split; [now left|]. intros y [<-|[]]. apply Qcle_refl.
  - destruct (IH (qmax x a)) as [H1 H2]. split.
    + destruct H1 as [H1|H1]; [|right; now right]. rewrite <- H1. unfold qmax. destruct (Qcleb x a); [right; now left|now left].
    + assert (K : (qmax x a <= fold_left qmax l (qmax x a))%Qc) by (apply H2; now left).
      intros y [<-|[<-|Hy]]; [| |apply H2; now right]; (eapply Qcle_trans; [|exact K]);
      unfold qmax; destruct (Qcleb_spec x a); qc.
Qed.

(** *** detectors *)
Lemma values_per_field_concat {A} (parts : list (list A)) : values_per_field (map (@length A) parts) (concat parts) = parts.
Proof.
  induction parts as [|p parts IH]; [reflexivity|]. cbn [map values_per_field concat].
  rewrite firstn_app, Nat.sub_diag, firstn_all, firstn_O, app_nil_r.
  rewrite skipn_app, Nat.sub_diag, skipn_all. cbn [app skipn]. now rewrite IH.
Qed.
Lemma reshape_concat {A} (rows : list (list A)) nc : Forall (fun r => length r = nc) rows -> reshape (length rows) nc (concat rows) = rows.
Proof.
  induction 1 as [|r rows Hr H IH]; [reflexivity|]. cbn [length reshape concat].
  rewrite <- Hr. rewrite firstn_app, Nat.sub_diag, firstn_all, firstn_O, app_nil_r.
  rewrite skipn_app, Nat.sub_diag, skipn_all. cbn [app skipn]. rewrite Hr. now rewrite IH.
Qed.
Lemma detector_name_inj n i j : detector_name n i = detector_name n j -> i = j.
Proof. unfold detector_name. intros H. apply sapp_inj_l in H. apply zpad_inj in H. lia. Qed.


(** *** sampling heights *)
Lemma frac_bounds n i : (2 <= n)%nat -> (i < n)%nat -> (0 <= qn i / qn (n - 1) /\ qn i / qn (n - 1) <= 1)%Qc.
Proof.
  intros Hn Hi. assert (P : (0 < qn (n - 1))%Qc) by (rewrite <- qn_0; apply qn_lt; lia).
  split.
  - apply qc_le_div; [exact P|]. assert (E : (0 * qn (n - 1) = 0)%Qc) by ring. rewrite E. apply qn_nonneg.
  - apply qc_div_le; [exact P|]. assert (E : (1 * qn (n - 1) = qn (n - 1))%Qc) by ring. rewrite E. apply qn_le. lia.
Qed.
Lemma frac_lt n i j : (2 <= n)%nat -> (i < j)%nat -> (qn i / qn (n - 1) < qn j / qn (n - 1))%Qc.
Proof.
  intros Hn Hi. assert (P : (0 < qn (n - 1))%Qc) by (rewrite <- qn_0; apply qn_lt; lia).
  apply qc_lt_div; [exact P|]. rewrite qc_div_mul by (now apply qc_pos_neq). now apply qn_lt.
Qed.
Lemma linspace_unfold a b n i : (2 <= n)%nat -> linspace a b n i = (a + (b - a) * (qn i / qn (n - 1)))%Qc.
Proof. intros H. unfold linspace. destruct (Nat.leb_spec n 1); [lia|reflexivity]. Qed.
Lemma linspace_first a b n : linspace a b n 0 = a.
Proof.
  unfold linspace. destruct (Nat.leb n 1); [reflexivity|]. unfold Qcdiv. rewrite qn_0. ring.
Qed.
Lemma linspace_last a b n : (2 <= n)%nat -> linspace a b n (n - 1) = b.
Proof.
  intros H. rewrite linspace_unfold by exact H.
  assert (P : (0 < qn (n - 1))%Qc) by (rewrite <- qn_0; apply qn_lt; lia).
  unfold Qcdiv. rewrite Qcmult_inv_r by (now apply qc_pos_neq). ring.
Qed.
Lemma linspace_decr a b n i j : (b < a)%Qc -> (2 <= n)%nat -> (i < j)%nat -> (linspace a b n j < linspace a b n i)%Qc.
Proof.
  intros Hab Hn Hij. rewrite !linspace_unfold by exact Hn. pose proof (frac_lt n i j Hn Hij) as F.
  assert (K : ((a - b) * (qn i / qn (n - 1)) < (a - b) * (qn j / qn (n - 1)))%Qc) by (apply qc_mult_lt; [qc|exact F]).
  set (x := (qn i / qn (n - 1))%Qc) in *. set (y := (qn j / qn (n - 1))%Qc) in *.
  assert (E1 : ((b - a) * x = - ((a - b) * x))%Qc) by ring. assert (E2 : ((b - a) * y = - ((a - b) * y))%Qc) by ring.
  rewrite E1, E2. qc.
Qed.
Lemma linspace_between a b n i : (b <= a)%Qc -> (i < n)%nat -> (b <= linspace a b n i /\ linspace a b n i <= a)%Qc.
Proof.
  intros Hab Hi. destruct (le_lt_dec n 1) as [H|H].
  - unfold linspace. destruct (Nat.leb_spec n 1); [|lia]. split; [exact Hab|apply Qcle_refl].
  - rewrite linspace_unfold by lia. destruct (frac_bounds n i) as [F1 F2]; [lia|exact Hi|].
    set (x := (qn i / qn (n - 1))%Qc) in *.
    assert (K1 : (0 <= (a - b) * x)%Qc) by (apply qc_mult_nonneg; [qc|exact F1]).
    assert (K2 : ((a - b) * x <= (a - b) * 1)%Qc) by (apply qc_mult_le; [qc|exact F2]).
    assert (E1 : ((b - a) * x = - ((a - b) * x))%Qc) by ring. assert (E2 : ((a - b) * 1 = a - b)%Qc) by ring.
    rewrite E2 in K2. rewrite E1. split; qc.
Qed.
Lemma profile_linspace depth elev n i : profile_z depth elev n i = linspace (elev - qq 1 100)%Qc (- (depth - qq 1 100))%Qc n i.
Proof.
  unfold profile_z, linspace. rewrite qz_0, qz_1. destruct (Nat.leb n 1); [ring|]. ring.
Qed.
