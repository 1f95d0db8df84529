(** C52: detector selection. *)
From Coq Require Import Reals List Bool String Arith Lra Lia.
From Verif Require Import Detector_Model.
Import ListNotations.
Open Scope R_scope.

(* ------------------------------------------------------------------ *)
(** * Specification *)

Definition all_cells (M : dmesh) : list loc := List.concat (leaves (dm_cells M)).
Definition dist (c p : loc) : R := sqrt (sqdist c p).

(** [q] is a cell centre of the mesh and none is closer to [p]. *)
Definition nearest (M : dmesh) (p q : loc) : Prop :=
  In q (all_cells M) /\ forall c, In c (all_cells M) -> dist q p <= dist c p.

(** What a user expects: detectors inside stay where they are, detectors within the
    maximum distance of a cell centre go to the nearest one, the others are
    dropped; order and names stay. *)
Inductive selected {N : Type} (M : dmesh) (maxd : R) : list (loc * N) -> list (loc * N) -> Prop :=
  | sel_nil : selected M maxd [] []
  | sel_in : forall p n l r, dm_inside M p = true -> selected M maxd l r ->
      selected M maxd ((p, n) :: l) ((p, n) :: r)
  | sel_move : forall p n q l r, dm_inside M p = false -> nearest M p q -> dist q p <= maxd ->
      selected M maxd l r -> selected M maxd ((p, n) :: l) ((q, n) :: r)
  | sel_drop : forall p n l r, dm_inside M p = false ->
      (forall c, In c (all_cells M) -> maxd < dist c p) ->
      selected M maxd l r -> selected M maxd ((p, n) :: l) r.

(** Every process has at least one cell, all points have the same dimension. *)
Definition good_mesh (n : nat) (M : dmesh) : Prop :=
  Forall (fun cells => cells <> [] /\ Forall (fun c : loc => List.length c = n) cells) (leaves (dm_cells M)).

(* ------------------------------------------------------------------ *)
(** * The reduction *)
Fixpoint lexle (x y : list R) : Prop :=
  match x, y with
  | a :: x', b :: y' => a < b \/ (a = b /\ lexle x' y')
  | _, _ => True
  end.

Lemma lexle_refl : forall x, lexle x x.
Proof. induction x; cbn; [exact I|right; split; [reflexivity|assumption]]. Qed.

Lemma lexle_trans : forall x y z, List.length x = List.length y -> List.length y = List.length z ->
  lexle x y -> lexle y z -> lexle x z.
Proof.
  induction x as [|a x IH]; intros [|b y] [|c z]; cbn; try tauto; try discriminate.
  intros H1 H2 [A|[-> A]] [B|[-> B]].
  - left; lra.
  - left; lra.
  - left; lra.
  - right; split; [reflexivity|]. injection H1 as H1. injection H2 as H2. apply (IH y z); assumption.
Qed.

Lemma lexle_antisym : forall x y, List.length x = List.length y -> lexle x y -> lexle y x -> x = y.
Proof.
  induction x as [|a x IH]; intros [|b y]; cbn; try reflexivity; try discriminate.
  intros H [A|[-> A]] [B|[B' B]]; try lra. injection H as H. f_equal. apply IH; assumption.
Qed.

Lemma lexle_head : forall a x b y, lexle (a :: x) (b :: y) -> a <= b.
Proof. intros a x b y [H|[-> _]]; lra. Qed.

Lemma min_lex_spec : forall x y, List.length x = List.length y ->
  (min_lexsort x y = x \/ min_lexsort x y = y) /\ lexle (min_lexsort x y) x /\ lexle (min_lexsort x y) y.
Proof.
  assert (G : forall x y X Y, List.length x = List.length y ->
    (min_lex_pairs (zip x y) X Y = X /\ lexle x y) \/ (min_lex_pairs (zip x y) X Y = Y /\ lexle y x)).
  { induction x as [|a x IH]; intros [|b y] X Y H; try discriminate.
    - left. split; [reflexivity|exact I].
    - cbn [zip min_lex_pairs lexle]. destruct (Rlt_dec a b) as [L|L]; [left; split; [reflexivity|left; exact L]|].
      destruct (Rlt_dec b a) as [L'|L']; [right; split; [reflexivity|left; exact L']|].
      assert (E : a = b) by lra. injection H as H. destruct (IH y X Y H) as [[A B]|[A B]].
      + left. split; [exact A|right; split; assumption].
      + right. split; [exact A|right; split; [symmetry; assumption|assumption]]. }
  intros x y H. unfold min_lexsort. destruct (G x y x y H) as [[-> B]|[-> B]].
  - split; [left; reflexivity|split; [apply lexle_refl|exact B]].
  - split; [right; reflexivity|split; [exact B|apply lexle_refl]].
Qed.

Lemma reduce_spec : forall n t, Forall (fun x : list R => List.length x = n) (leaves t) ->
  In (reduce t) (leaves t) /\ forall x, In x (leaves t) -> lexle (reduce t) x.
Proof.
  intros n t. induction t as [a|l IHl r IHr]; intro H; cbn [leaves reduce] in *.
  - split; [left; reflexivity|]. intros x [<-|[]]. apply lexle_refl.
  - apply Forall_app in H. destruct H as (Hl & Hr).
    destruct (IHl Hl) as (A1 & A2). destruct (IHr Hr) as (B1 & B2).
    assert (La : List.length (reduce l) = n) by (rewrite Forall_forall in Hl; apply Hl, A1).
    assert (Lb : List.length (reduce r) = n) by (rewrite Forall_forall in Hr; apply Hr, B1).
    destruct (min_lex_spec (reduce l) (reduce r) ltac:(congruence)) as (C1 & C2 & C3).
    assert (Lm : List.length (min_lexsort (reduce l) (reduce r)) = n) by (destruct C1 as [->| ->]; assumption).
    split.
    + apply in_or_app. destruct C1 as [->| ->]; [left|right]; assumption.
    + intros x Hx. apply in_app_or in Hx. rewrite Forall_forall in Hl, Hr. destruct Hx as [Hx|Hx].
      * apply (lexle_trans _ (reduce l)); [congruence| |exact C2|apply A2, Hx]. rewrite La. symmetry. apply Hl, Hx.
      * apply (lexle_trans _ (reduce r)); [congruence| |exact C3|apply B2, Hx]. rewrite Lb. symmetry. apply Hr, Hx.
Qed.

(** The result of the reduction depends neither on how MPI brackets the operands
    nor on the numbering of the processes. *)
Theorem C52_reduction_order : forall n t t',
  Forall (fun x : list R => List.length x = n) (leaves t) ->
  (forall x, In x (leaves t) <-> In x (leaves t')) -> reduce t = reduce t'.
Proof.
  intros n t t' H Hs.
  assert (H' : Forall (fun x : list R => List.length x = n) (leaves t')).
  { rewrite Forall_forall in *. intros x Hx. apply H, Hs, Hx. }
  destruct (reduce_spec n t H) as (A1 & A2). destruct (reduce_spec n t' H') as (B1 & B2).
  rewrite Forall_forall in H, H'.
  apply lexle_antisym.
  - rewrite (H _ A1), (H' _ B1). reflexivity.
  - apply A2, Hs, B1.
  - apply B2, Hs, A1.
Qed.

(* ------------------------------------------------------------------ *)
(** * The nearest cell *)
Lemma argmin_spec : forall d l v c, argmin d l = Some (v, c) ->
  In c l /\ v = d c /\ forall c', In c' l -> d c <= d c'.
Proof.
  intros d l. induction l as [|x l IH]; intros v c H; [discriminate|]. cbn [argmin] in H.
  destruct (argmin d l) as [[w y]|] eqn:E.
  - destruct (IH w y eq_refl) as (A & -> & B). destruct (Rlt_dec (d y) (d x)) as [L|L].
    + assert (c = y /\ v = d y) as (-> & ->) by (split; congruence).
      split; [right; exact A|split; [reflexivity|]]. intros c' [<-|Hc]; [lra|apply B, Hc].
    + assert (c = x /\ v = d x) as (-> & ->) by (split; congruence).
      split; [left; reflexivity|split; [reflexivity|]].
      intros c' [<-|Hc]; [lra|]. specialize (B c' Hc). lra.
  - assert (c = x /\ v = d x) as (-> & ->) by (split; congruence).
    split; [left; reflexivity|split; [reflexivity|]]. destruct l as [|z l].
    + intros c' [<-|[]]. lra.
    + exfalso. cbn [argmin] in E. destruct (argmin d l) as [[w y]|]; [destruct (Rlt_dec w (d z))|]; discriminate.
Qed.

Lemma argmin_some : forall d l, l <> [] -> exists v c, argmin d l = Some (v, c).
Proof.
  intros d [|x l] H; [contradiction|]. cbn [argmin]. destruct (argmin d l) as [[w y]|].
  - destruct (Rlt_dec w (d x)); eauto.
  - eauto.
Qed.

Lemma sqdist_nonneg : forall c p, 0 <= sqdist c p.
Proof.
  intros. unfold sqdist. induction (zip c p) as [|[a b] l IH]; cbn [map fold_right fst snd]; [lra|].
  assert (0 <= (a - b) * (a - b)) by (apply Rle_0_sqr). lra.
Qed.

Lemma local_best_spec : forall n p cells, cells <> [] -> Forall (fun c : loc => List.length c = n) cells ->
  exists c, local_best p cells = Some (dist c p :: c) /\ In c cells /\
    forall c', In c' cells -> dist c p <= dist c' p.
Proof.
  intros n p cells Hne Hn. destruct (argmin_some (fun c => sqdist c p) cells Hne) as (v & c & E).
  unfold local_best. rewrite E. destruct (argmin_spec _ _ _ _ E) as (A & -> & B). exists c.
  split; [reflexivity|split; [exact A|]]. intros c' Hc. unfold dist. apply sqrt_le_1.
  - apply sqdist_nonneg.
  - apply sqdist_nonneg.
  - apply B, Hc.
Qed.

Lemma tmap_leaves : forall A B (f : A -> option B) (g : A -> B) t,
  (forall a, In a (leaves t) -> f a = Some (g a)) ->
  exists t', tmap f t = Some t' /\ leaves t' = map g (leaves t).
Proof.
  intros A B f g t. induction t as [a|l IHl r IHr]; intro H; cbn [leaves tmap] in *.
  - exists (Leaf (g a)). rewrite (H a (or_introl eq_refl)). split; reflexivity.
  - destruct IHl as (l' & L1 & L2). { intros; apply H, in_or_app; left; assumption. }
    destruct IHr as (r' & R1 & R2). { intros; apply H, in_or_app; right; assumption. }
    exists (Node l' r'). rewrite L1, R1. split; [reflexivity|]. cbn [leaves]. rewrite L2, R2, map_app. reflexivity.
Qed.

Theorem C52_moved_to_nearest : forall n M p, good_mesh n M ->
  exists q, move_to_nearest M p = DOk (dist q p, q) /\ nearest M p q.
Proof.
  intros n M p HM. unfold good_mesh in HM. rewrite Forall_forall in HM.
  set (g := fun cells => match local_best p cells with Some x => x | None => [] end).
  destruct (tmap_leaves _ _ (local_best p) g (dm_cells M)) as (t & T1 & T2).
  { intros cells Hc. destruct (HM cells Hc) as (Hne & Hl).
    destruct (local_best_spec n p cells Hne Hl) as (c & E & _). unfold g. rewrite E. reflexivity. }
  unfold move_to_nearest. rewrite T1.
  assert (HL : Forall (fun x : list R => List.length x = S n) (leaves t)).
  { rewrite T2, Forall_forall. intros x Hx. apply in_map_iff in Hx. destruct Hx as (cells & <- & Hc).
    destruct (HM cells Hc) as (Hne & Hl). destruct (local_best_spec n p cells Hne Hl) as (c & E & Hin & _).
    unfold g. rewrite E. cbn. f_equal. rewrite Forall_forall in Hl. apply Hl, Hin. }
  destruct (reduce_spec (S n) t HL) as (A1 & A2). rewrite T2 in A1.
  apply in_map_iff in A1. destruct A1 as (cells & Ec & Hc).
  destruct (HM cells Hc) as (Hne & Hl). destruct (local_best_spec n p cells Hne Hl) as (q & E & Hin & Hmin).
  unfold g in Ec. rewrite E in Ec. exists q. rewrite <- Ec. split; [reflexivity|].
  unfold nearest, all_cells. split.
  - apply in_concat. exists cells. split; assumption.
  - intros c Hcc. apply in_concat in Hcc. destruct Hcc as (cells' & Hc' & Hin').
    destruct (HM cells' Hc') as (Hne' & Hl').
    destruct (local_best_spec n p cells' Hne' Hl') as (q' & E' & _ & Hmin').
    specialize (Hmin' c Hin').
    assert (Hx : In (dist q' p :: q') (leaves t)).
    { rewrite T2. apply in_map_iff. exists cells'. split; [|exact Hc']. unfold g. rewrite E'. reflexivity. }
    specialize (A2 _ Hx). rewrite <- Ec in A2. apply lexle_head in A2. lra.
Qed.

(* ------------------------------------------------------------------ *)
(** * The selection *)
Theorem C52_selected : forall N n M maxd (l : list (loc * N)), good_mesh n M ->
  exists r, select_loop M maxd l = DOk r /\ selected M maxd l r.
Proof.
  intros N n M maxd l HM. induction l as [|[p nm] l (r & IH & Hr)].
  - exists []. split; [reflexivity|constructor].
  - cbn [select_loop]. destruct (dm_inside M p) eqn:Ei.
    + exists ((p, nm) :: r). rewrite IH. split; [reflexivity|constructor; assumption].
    + destruct (C52_moved_to_nearest n M p HM) as (q & Hq & Hn). rewrite Hq. cbn [dbind fst snd].
      destruct (Rgt_dec (dist q p) maxd) as [G|G].
      * exists r. split; [exact IH|]. apply sel_drop; [exact Ei| |exact Hr].
        intros c Hc. destruct Hn as (_ & Hn). specialize (Hn c Hc). lra.
      * exists ((q, nm) :: r). rewrite IH. split; [reflexivity|].
        apply sel_move; [exact Ei|exact Hn|lra|exact Hr].
Qed.

Lemma zip_fst : forall A B (a : list A) (b : list B), List.length a = List.length b -> map fst (zip a b) = a.
Proof. induction a as [|x a IH]; intros [|y b] H; try discriminate; [reflexivity|]. cbn. f_equal. apply IH. injection H; auto. Qed.
Lemma zip_snd : forall A B (a : list A) (b : list B), List.length a = List.length b -> map snd (zip a b) = b.
Proof. induction a as [|x a IH]; intros [|y b] H; try discriminate; [reflexivity|]. cbn. f_equal. apply IH. injection H; auto. Qed.

(** The API: locations and names returned together, in step. *)
Theorem C52_locations_and_names : forall n M maxd locs names, good_mesh n M ->
  locs <> [] -> List.length names = List.length locs ->
  exists r : list (loc * string),
    select_and_move M locs (Some names) maxd = DOk (map fst r, Some (map snd r)) /\
    selected M maxd (zip locs names) r /\
    map fst (zip locs names) = locs /\ map snd (zip locs names) = names.
Proof.
  intros n M maxd locs names HM Hne Hl.
  destruct (C52_selected string n M maxd (zip locs names) HM) as (r & E & Hs). exists r.
  split; [|split; [exact Hs|split; [apply zip_fst|apply zip_snd]; congruence]].
  unfold select_and_move. destruct locs as [|x locs]; [contradiction|]. rewrite E. reflexivity.
Qed.

(** Without names the same locations are returned. *)
Lemma select_names : forall A B M maxd (l : list (loc * A)) (f : A -> B),
  select_loop M maxd (map (fun x => (fst x, f (snd x))) l)
  = dbind (select_loop M maxd l) (fun r => DOk (map (fun x => (fst x, f (snd x))) r)).
Proof.
  intros A B M maxd l f. induction l as [|[p n] l IH]; [reflexivity|]. cbn [map fst snd select_loop].
  rewrite IH. destruct (dm_inside M p).
  - destruct (select_loop M maxd l); reflexivity.
  - destruct (move_to_nearest M p) as [[d q]|e]; [|reflexivity]. cbn [dbind fst snd].
    destruct (Rgt_dec d maxd); [reflexivity|]. destruct (select_loop M maxd l); reflexivity.
Qed.

Theorem C52_names_do_not_matter : forall M maxd locs names,
  List.length names = List.length locs ->
  select_and_move M locs None maxd
  = dbind (select_and_move M locs (Some names) maxd) (fun r => DOk (fst r, None)).
Proof.
  intros M maxd locs names Hl. unfold select_and_move. destruct locs as [|x locs]; [reflexivity|].
  set (ls := x :: locs) in *.
  assert (E : zip ls (map (fun _ => tt) ls) = map (fun y => (fst y, (fun _ : string => tt) (snd y))) (zip ls names)).
  { clear - Hl. revert names Hl. induction ls as [|y l IH]; intros [|s names] Hl; try discriminate; [reflexivity|].
    cbn. f_equal. apply IH. injection Hl; auto. }
  rewrite E, (select_names string unit M maxd (zip ls names) (fun _ => tt)). destruct (select_loop M maxd (zip ls names)) as [r|e]; [|reflexivity].
  cbn [dbind fst]. f_equal. f_equal. rewrite map_map. reflexivity.
Qed.

(** A maximum distance of zero moves nothing: the result is the detectors inside. *)
Lemma sqdist_zero : forall c p, List.length c = List.length p -> sqdist c p = 0 -> c = p.
Proof.
  induction c as [|a c IH]; intros [|b p] H E; try discriminate; [reflexivity|].
  unfold sqdist in E. cbn [zip map fold_right fst snd] in E.
  pose proof (sqdist_nonneg c p) as S. unfold sqdist in S.
  pose proof (Rle_0_sqr (a - b)) as S2. unfold Rsqr in S2.
  f_equal.
  - assert (Z : (a - b) * (a - b) = 0) by lra. apply Rmult_integral in Z. lra.
  - apply IH; [injection H; auto|]. unfold sqdist. lra.
Qed.

Theorem C52_default_distance : forall N n M (l r : list (loc * N)), good_mesh n M ->
  (forall c, In c (all_cells M) -> dm_inside M c = true) ->
  Forall (fun x => List.length (fst x) = n) l ->
  select_loop M 0 l = DOk r -> r = filter (fun x => dm_inside M (fst x)) l.
Proof.
  intros N n M l r HM Hin HF E. destruct (C52_selected N n M 0 l HM) as (r' & E' & Hs).
  assert (r' = r) by congruence. subst r'. clear E E'. induction Hs as [|p nm l r Hp Hs IH|p nm q l r Hp Hq Hd Hs IH|p nm l r Hp Hd Hs IH].
  - reflexivity.
  - cbn [filter fst]. rewrite Hp. f_equal. apply IH. inversion HF; assumption.
  - exfalso. destruct Hq as (Hq & _).
    assert (Hz : sqdist q p = 0).
    { unfold dist in Hd. apply sqrt_eq_0; [apply sqdist_nonneg|]. pose proof (sqrt_pos (sqdist q p)). lra. }
    assert (Hlen : List.length q = n).
    { unfold good_mesh in HM. rewrite Forall_forall in HM. unfold all_cells in Hq. apply in_concat in Hq.
      destruct Hq as (cells & H1 & H2). destruct (HM cells H1) as (_ & HM'). rewrite Forall_forall in HM'. apply HM', H2. }
    apply sqdist_zero in Hz.
    + subst q. rewrite (Hin p Hq) in Hp. discriminate.
    + rewrite Hlen. inversion HF as [|x y Hx]; subst. symmetry. exact Hx.
  - cbn [filter fst]. rewrite Hp. apply IH. inversion HF; assumption.
Qed.

(** Selecting again changes nothing (the cell centres are inside the mesh). *)
Theorem C52_idempotent : forall N n M maxd maxd' (l r : list (loc * N)), good_mesh n M ->
  (forall c, In c (all_cells M) -> dm_inside M c = true) ->
  select_loop M maxd l = DOk r -> select_loop M maxd' r = DOk r.
Proof.
  intros N n M maxd maxd' l r HM Hin E. destruct (C52_selected N n M maxd l HM) as (r' & E' & Hs).
  assert (r' = r) by congruence. subst r'. clear E E'.
  induction Hs as [|p nm l r Hp Hs IH|p nm q l r Hp Hq Hd Hs IH|p nm l r Hp Hd Hs IH].
  - reflexivity.
  - cbn [select_loop]. rewrite Hp, IH. reflexivity.
  - cbn [select_loop]. destruct Hq as (Hq & _). rewrite (Hin q Hq), IH. reflexivity.
  - exact IH.
Qed.

(** A larger distance keeps every detector a smaller one keeps. *)
Inductive sublist {A : Type} : list A -> list A -> Prop :=
  | sub_nil : sublist [] []
  | sub_keep : forall x a b, sublist a b -> sublist (x :: a) (x :: b)
  | sub_skip : forall x a b, sublist a b -> sublist a (x :: b).

Theorem C52_monotone : forall N n M d1 d2 (l r1 r2 : list (loc * N)), good_mesh n M -> d1 <= d2 ->
  select_loop M d1 l = DOk r1 -> select_loop M d2 l = DOk r2 -> sublist r1 r2.
Proof.
  intros N n M d1 d2 l. induction l as [|[p nm] l IH]; intros r1 r2 HM Hd E1 E2.
  - injection E1 as <-. injection E2 as <-. constructor.
  - destruct (C52_selected N n M d1 l HM) as (s1 & S1 & _).
    destruct (C52_selected N n M d2 l HM) as (s2 & S2 & _).
    specialize (IH s1 s2 HM Hd S1 S2). cbn [select_loop] in E1, E2. rewrite S1 in E1. rewrite S2 in E2.
    destruct (dm_inside M p).
    + cbn [dbind] in *. assert (r1 = (p, nm) :: s1) as -> by congruence.
      assert (r2 = (p, nm) :: s2) as -> by congruence. constructor; exact IH.
    + destruct (C52_moved_to_nearest n M p HM) as (q & Hq & _). rewrite Hq in E1, E2. cbn [dbind fst snd] in E1, E2.
      destruct (Rgt_dec (dist q p) d1), (Rgt_dec (dist q p) d2); try lra.
      * assert (r1 = s1) as -> by congruence. assert (r2 = s2) as -> by congruence. exact IH.
      * assert (r1 = s1) as -> by congruence. assert (r2 = (q, nm) :: s2) as -> by congruence. constructor; exact IH.
      * assert (r1 = (q, nm) :: s1) as -> by congruence. assert (r2 = (q, nm) :: s2) as -> by congruence. constructor; exact IH.
Qed.

(* ------------------------------------------------------------------ *)
(** * Distribution over processes *)

(** Where the nearest cell centre is unique for every detector outside the mesh,
    the result does not depend on how the cells are distributed over processes,
    how these are numbered or how MPI brackets the reduction. *)
Theorem C52_distribution : forall N n M M' maxd (l : list (loc * N)),
  good_mesh n M -> good_mesh n M' ->
  (forall p, dm_inside M p = dm_inside M' p) ->
  (forall c, In c (all_cells M) <-> In c (all_cells M')) ->
  (forall p nm q q', In (p, nm) l -> dm_inside M p = false -> nearest M p q -> nearest M p q' -> q = q') ->
  select_loop M maxd l = select_loop M' maxd l.
Proof.
  intros N n M M' maxd l HM HM' Hi Hc. induction l as [|[p nm] l IH]; intro Hu; [reflexivity|].
  cbn [select_loop]. rewrite <- (Hi p). rewrite IH.
  2:{ intros p0 nm0 q q' H. apply (Hu p0 nm0 q q'). right; exact H. }
  destruct (dm_inside M p) eqn:Ei; [reflexivity|].
  destruct (C52_moved_to_nearest n M p HM) as (q & -> & Hq).
  destruct (C52_moved_to_nearest n M' p HM') as (q' & -> & Hq').
  assert (Hq'' : nearest M p q').
  { destruct Hq' as (A & B). split; [apply Hc, A|]. intros c H. apply B, Hc, H. }
  rewrite (Hu p nm q q' (or_introl eq_refl) Ei Hq Hq''). reflexivity.
Qed.

(** How many detectors are kept never depends on it. *)
Theorem C52_distribution_names : forall N n M M' maxd (l r r' : list (loc * N)),
  good_mesh n M -> good_mesh n M' ->
  (forall p, dm_inside M p = dm_inside M' p) ->
  (forall c, In c (all_cells M) <-> In c (all_cells M')) ->
  select_loop M maxd l = DOk r -> select_loop M' maxd l = DOk r' -> map snd r = map snd r'.
Proof.
  intros N n M M' maxd l. induction l as [|[p nm] l IH]; intros r r' HM HM' Hi Hc E E'.
  - injection E as <-. injection E' as <-. reflexivity.
  - destruct (C52_selected N n M maxd l HM) as (s & S1 & _).
    destruct (C52_selected N n M' maxd l HM') as (s' & S2 & _).
    specialize (IH s s' HM HM' Hi Hc S1 S2). cbn [select_loop] in E, E'. rewrite S1 in E. rewrite S2, <- (Hi p) in E'.
    destruct (dm_inside M p).
    + cbn [dbind] in *. assert (r = (p, nm) :: s) as -> by congruence.
      assert (r' = (p, nm) :: s') as -> by congruence. cbn. f_equal. exact IH.
    + destruct (C52_moved_to_nearest n M p HM) as (q & Hq & Q1 & Q2).
      destruct (C52_moved_to_nearest n M' p HM') as (q' & Hq' & Q1' & Q2').
      rewrite Hq in E. rewrite Hq' in E'. cbn [dbind fst snd] in E, E'.
      assert (D : dist q p = dist q' p).
      { apply Rle_antisym; [apply Q2, Hc, Q1'|apply Q2', Hc, Q1]. }
      rewrite D in E. destruct (Rgt_dec (dist q' p) maxd).
      * assert (r = s) as -> by congruence. assert (r' = s') as -> by congruence. exact IH.
      * assert (r = (q, nm) :: s) as -> by congruence. assert (r' = (q', nm) :: s') as -> by congruence.
        cbn. f_equal. exact IH.
Qed.

(** With two cell centres at the same distance it does: one process takes the first
    in its own numbering, several processes the lexicographically smallest. *)
Definition serial : dmesh := mk_dmesh (fun _ => false) (Leaf [[1; 0]; [-1; 0]]).
Definition parallel : dmesh := mk_dmesh (fun _ => false) (Node (Leaf [[1; 0]]) (Leaf [[-1; 0]])).

Lemma sq10 : sqdist [1; 0] [0; 0] = 1. Proof. unfold sqdist; cbn. lra. Qed.
Lemma sqm10 : sqdist [-1; 0] [0; 0] = 1. Proof. unfold sqdist; cbn. lra. Qed.

Lemma lb_one : local_best [0; 0] [[1; 0]] = Some [1; 1; 0].
Proof. unfold local_best, argmin. rewrite sq10, sqrt_1. reflexivity. Qed.
Lemma lb_mone : local_best [0; 0] [[-1; 0]] = Some [1; -1; 0].
Proof. unfold local_best, argmin. rewrite sqm10, sqrt_1. reflexivity. Qed.
Lemma lb_both : local_best [0; 0] [[1; 0]; [-1; 0]] = Some [1; 1; 0].
Proof.
  unfold local_best, argmin. rewrite sq10, sqm10. destruct (Rlt_dec 1 1); [lra|]. rewrite sqrt_1. reflexivity.
Qed.

Theorem C52_distribution_refuted :
  good_mesh 2 serial /\ good_mesh 2 parallel /\ all_cells serial = all_cells parallel /\
  select_and_move serial [[0; 0]] None 2 = DOk ([[1; 0]], None) /\
  select_and_move parallel [[0; 0]] None 2 = DOk ([[-1; 0]], None).
Proof.
  split; [|split; [|split; [reflexivity|split]]].
  - repeat constructor; discriminate.
  - repeat constructor; discriminate.
  - unfold select_and_move, serial. cbn [zip map select_loop dm_inside]. unfold move_to_nearest.
    cbn [dm_cells tmap]. rewrite lb_both. cbn [reduce dbind fst snd].
    destruct (Rgt_dec 1 2); [lra|]. reflexivity.
  - unfold select_and_move, parallel. cbn [zip map select_loop dm_inside]. unfold move_to_nearest.
    cbn [dm_cells tmap]. rewrite lb_one, lb_mone. cbn [reduce]. unfold min_lexsort. cbn [zip min_lex_pairs].
    destruct (Rlt_dec 1 1); [lra|]. destruct (Rlt_dec 1 (-1)); [lra|]. destruct (Rlt_dec (-1) 1); [|lra].
    cbn [dbind fst snd]. destruct (Rgt_dec 1 2); [lra|]. reflexivity.
Qed.

(** A process without cells makes the move fail with a ValueError. *)
Theorem C52_empty_process_refuted : forall M p,
  In [] (leaves (dm_cells M)) -> move_to_nearest M p = DErr ValueErr.
Proof.
  intros M p H. unfold move_to_nearest.
  assert (E : tmap (local_best p) (dm_cells M) = None).
  { induction (dm_cells M) as [a|l IHl r IHr]; cbn [leaves tmap] in *.
    - destruct H as [->|[]]. reflexivity.
    - apply in_app_or in H. destruct H as [H|H]; [rewrite (IHl H)|rewrite (IHr H)]; [reflexivity|].
      destruct (tmap (local_best p) l); reflexivity. }
  rewrite E. reflexivity.
Qed.

(** Too few names silently drop detectors; no detectors at all is an error. *)
Theorem C52_short_names_refuted : forall M maxd p q s,
  dm_inside M p = true -> dm_inside M q = true ->
  select_and_move M [p; q] (Some [s]) maxd = DOk ([p], Some [s]) /\
  select_and_move M [] (Some []) maxd = DErr IndexErr.
Proof.
  intros M maxd p q s Hp Hq. split; [|reflexivity]. unfold select_and_move. cbn [zip select_loop].
  rewrite Hp. reflexivity.
Qed.

(** A concrete selection: one detector inside, one moved, one dropped. *)
Definition strip : dmesh :=
  mk_dmesh (fun p => match p with x :: _ => if Rlt_dec x 2 then true else false | [] => false end)
    (Node (Leaf [[0; 0]]) (Leaf [[1; 0]])).
Example ex_strip_good : good_mesh 2 strip. Proof. repeat constructor; discriminate. Qed.
Example ex_select : exists r, select_and_move strip [[0; 5]; [3; 0]; [9; 0]] (Some ["a"; "b"; "c"]%string) 2
  = DOk (map fst r, Some (map snd r)) /\
  selected strip 2 [([0; 5], "a"%string); ([3; 0], "b"%string); ([9; 0], "c"%string)] r.
Proof.
  destruct (C52_locations_and_names 2 strip 2 [[0; 5]; [3; 0]; [9; 0]] ["a"; "b"; "c"]%string ex_strip_good)
    as (r & H1 & H2 & _); [discriminate|reflexivity|]. exists r. split; [exact H1|exact H2].
Qed.

Print Assumptions C52_locations_and_names.
Print Assumptions C52_distribution.
