From Coq Require Import List String Bool Arith Lia.
From Verif Require Import Setup_Model Setup_Spec.
Import ListNotations.
Open Scope string_scope.
Open Scope list_scope.

Lemma memb_in : forall l ls, memb l ls = true <-> In l ls.
Proof.
  intros l ls. unfold memb. rewrite existsb_exists. split.
  - intros [x [Hx E]]. apply String.eqb_eq in E. subst x. exact Hx.
  - intros H. exists l. split; [exact H | apply String.eqb_refl].
Qed.
Lemma memb_not_in : forall l ls, ~ In l ls -> memb l ls = false.
Proof. intros l ls H. destruct (memb l ls) eqn:E; [| reflexivity]. apply memb_in in E. contradiction. Qed.
Lemma part_eqb_eq : forall a b, part_eqb a b = true <-> a = b.
Proof.
  intros a b. destruct a, b; cbn; split; intros H; try discriminate; try reflexivity.
  - apply String.eqb_eq in H. subst. reflexivity.
  - injection H as ->. apply String.eqb_refl.
Qed.
Lemma has_part_in : forall p ps, has_part p ps = true <-> In p ps.
Proof.
  intros p ps. unfold has_part. rewrite existsb_exists. split.
  - intros [x [Hx E]]. apply part_eqb_eq in E. subst x. exact Hx.
  - intros H. exists p. split; [exact H | apply part_eqb_eq; reflexivity].
Qed.
Lemma parts_in : forall ps qs, forallb (fun p => has_part p qs) ps = true <-> incl ps qs.
Proof.
  intros ps qs. rewrite forallb_forall. split.
  - intros H p Hp. apply has_part_in, H, Hp.
  - intros H p Hp. apply has_part_in, H, Hp.
Qed.

Lemma add_tracers_ok : forall ls s f, fields s = Some f -> NoDup ls ->
  (forall l, In l ls -> ~ In l (registry s)) ->
  add_tracers ls s =
  Ok (mkSt (conf s) (spaces s)
       (Some (mkFields (f_id f) (f_spaces f) (f_cfg f) (f_labels f ++ ls) (f_done f)))
       (eqs s) (stepper s) (exporters s) (initialized s) (next s) (journal s) (registry s ++ ls)).
Proof.
  induction ls as [|l ls IH]; intros s f Hf Hnd Hr.
  - cbn. destruct s, f; cbn in *. subst. rewrite !app_nil_r. reflexivity.
  - cbn. rewrite memb_not_in by (apply Hr; left; reflexivity).
    rewrite Hf. inversion Hnd; subst.
    rewrite (IH _ (mkFields (f_id f) (f_spaces f) (f_cfg f) (f_labels f ++ [l]) (f_done f))).
    + cbn. rewrite <- !app_assoc. reflexivity.
    + reflexivity.
    + assumption.
    + cbn. intros m Hm Hin. apply in_app_or in Hin. destruct Hin as [Hin | [Hin | []]].
      * apply (Hr m); [right; exact Hm | exact Hin].
      * subst m. contradiction.
Qed.

Lemma add_tracer_eqs_ok : forall ls s f e, fields s = Some f -> eqs s = Some e ->
  incl ls (f_labels f) ->
  add_tracer_eqs ls s =
  Ok (put_eqs s (mkEqs (e_id e) (e_fields e) (e_cfg e) (e_parts e ++ map Tr ls) (e_done e))).
Proof.
  induction ls as [|l ls IH]; intros s f e Hf He Hi.
  - cbn. destruct s, e; cbn in *. subst. rewrite app_nil_r. reflexivity.
  - cbn [add_tracer_eqs]. rewrite Hf.
    replace (memb l (f_labels f)) with true by (symmetry; apply memb_in, Hi; left; reflexivity).
    unfold add_part. rewrite He.
    rewrite (IH _ f (mkEqs (e_id e) (e_fields e) (e_cfg e) (e_parts e ++ [Tr l]) (e_done e))).
    + cbn. rewrite <- app_assoc. reflexivity.
    + exact Hf.
    + reflexivity.
    + intros m Hm. apply Hi. right. exact Hm.
Qed.

(** equations built by the 2D solver *)
Definition parts_of (three_d : bool) (c : cfg) : list part :=
  if three_d then [Sw]
  else [Sw] ++ map Tr (c_tracers c) ++ (if c_susp c then [Sed] else [])
       ++ (if c_exner c then [Exn] else []) ++ (if c_nonhydro c then [Fs] else []).
Definition labels_of (three_d : bool) (c : cfg) : list string :=
  if three_d then [] else c_tracers c.

Lemma equations_gen : forall (three_d : bool) (c : cfg),
  (three_d = false -> c_farms_ok c = true /\ (c_exner c = true -> c_bathy_cg c = true)) ->
  forall i k n j ini r sp e t x, sp = Some (i, c) ->
  create_equations three_d (mkSt c sp (Some (mkFields k i c (labels_of three_d c) true)) e t x ini n j r) =
  Ok (mkSt c sp (Some (mkFields k i c (labels_of three_d c) true)) (Some (mkEqs n k c (parts_of three_d c) true)) t x ini (S n) (j ++ [KEquations]) r).
Proof.
  intros three_d c V2 i k n j ini r sp e t x ->.
  unfold parts_of, labels_of. destruct three_d.
  - reflexivity.
  - destruct (V2 eq_refl) as [Hf Hx].
    pose (est := fun ps d => mkSt c (Some (i, c)) (Some (mkFields k i c (c_tracers c) true))
                   (Some (mkEqs n k c ps d)) t x ini (S n) (j ++ [KEquations]) r).
    assert (Hadd : forall p ps d, add_part p (est ps d) = est (ps ++ [p]) d) by reflexivity.
    assert (Hcond : forall (b : bool) p ps d,
              (if b then add_part p (est ps d) else est ps d) = est (ps ++ (if b then [p] else [])) d)
      by (intros [|] p ps d; [reflexivity | rewrite app_nil_r; reflexivity]).
    assert (Hconf : forall ps d, conf (est ps d) = c) by reflexivity.
    assert (Hdone : forall ps, eqs_complete (est ps false) = est ps true) by reflexivity.
    assert (Hb : c_exner c && negb (c_bathy_cg c) = false)
      by (destruct (c_exner c); [rewrite (Hx eq_refl) |]; reflexivity).
    transitivity (bind (add_tracer_eqs (c_tracers c) (est [Sw] false)) (fun s =>
       let s := if c_susp (conf s) then add_part Sed s else s in
       if c_exner (conf s) && negb (c_bathy_cg (conf s)) then Raise EExner s
       else
         let s := if c_exner (conf s) then add_part Exn s else s in
         let s := if c_nonhydro (conf s) then add_part Fs s else s in
         Ok (eqs_complete s))).
    { unfold create_equations, bind at 1. cbn [fields conf note put_eqs].
      unfold note at 1, put_eqs at 1. cbn [conf]. rewrite Hf. reflexivity. }
    rewrite (add_tracer_eqs_ok _ _ (mkFields k i c (c_tracers c) true) (mkEqs n k c [Sw] false));
      [| reflexivity | reflexivity | intros l Hl; exact Hl].
    change (put_eqs (est [Sw] false) _) with (est ([Sw] ++ map Tr (c_tracers c)) false).
    unfold bind. cbv zeta. rewrite Hconf, Hcond, Hconf, Hb, Hcond, Hconf, Hcond, Hdone.
    unfold est. rewrite <- !app_assoc. reflexivity.
Qed.

Section Stages.
Variables (three_d : bool) (c : cfg) (reg : list string).
Hypothesis Hvalid : valid three_d c.
Hypothesis Hreg : forall l, In l (c_tracers c) -> ~ In l reg.

Definition mk_f (i k : nat) := mkFields k i c (labels_of three_d c) true.
Definition mk_e (k m : nat) := mkEqs m k c (parts_of three_d c) true.
Definition mk_t (k m p : nat) := mkStepper p m k c true.
Definition mk_x (k q : nat) :=
  mkExporters q k c (if c_no_exports c then [] else ["vtk"; "hdf5"]).
Definition reg_of := reg ++ labels_of three_d c.

Lemma spaces_ok : forall s, conf s = c -> create_function_spaces s = Ok (put_spaces s).
Proof.
  intros s Hc. unfold create_function_spaces. rewrite Hc.
  destruct Hvalid as [-> _]. reflexivity.
Qed.

(** fields when the spaces exist (2D), or from any spaces (3D) *)
Lemma fields_ok_2d : three_d = false -> forall i n j ini e t x,
  create_fields three_d (mkSt c (Some (i, c)) None e t x ini n j reg) =
  Ok (mkSt c (Some (i, c)) (Some (mk_f i n)) e t x ini (S n) (j ++ [KFields]) reg_of).
Proof.
  intros Hd i n j ini e t x. pose proof Hvalid as V. unfold valid in V. unfold reg_of, labels_of, mk_f, labels_of. rewrite Hd in *.
  destruct V as [_ [He [_ [_ [_ V2]]]]]. destruct (V2 eq_refl) as [_ [_ [Hnd _]]].
  unfold create_fields, bind. cbn [spaces conf]. rewrite He. cbn [negb].
  rewrite (add_tracers_ok _ _ (mkFields n i c [] false)); [reflexivity | reflexivity | exact Hnd | exact Hreg].
Qed.
Lemma fields_ok_3d : three_d = true -> forall sp n j ini f e t x,
  create_fields three_d (mkSt c sp f e t x ini n j reg) =
  Ok (mkSt c (Some (n, c)) (Some (mk_f n (S n))) e t x ini (S (S n)) (j ++ [KSpaces] ++ [KFields]) reg_of).
Proof.
  intros Hd sp n j ini f e t x. pose proof Hvalid as V. unfold valid in V. unfold reg_of, labels_of, mk_f, labels_of. rewrite Hd in *.
  destruct V as [Hs [He [_ [_ [Hl _]]]]]. specialize (Hl eq_refl).
  unfold create_fields, bind, create_function_spaces. cbn [spaces conf]. rewrite Hs.
  cbn. rewrite He. cbn. rewrite Hl. unfold put_fields, note. cbn. rewrite app_nil_r, <- app_assoc. reflexivity.
Qed.
Lemma fields_ok_2d_bare : three_d = false -> forall n j ini e t x,
  create_fields three_d (mkSt c None None e t x ini n j reg) =
  Ok (mkSt c (Some (n, c)) (Some (mk_f n (S n))) e t x ini (S (S n)) (j ++ [KSpaces] ++ [KFields]) reg_of).
Proof.
  intros Hd n j ini e t x.
  transitivity (create_fields three_d (mkSt c (Some (n, c)) None e t x ini (S n) (j ++ [KSpaces]) reg)).
  - pose proof Hvalid as V. unfold valid in V. rewrite Hd in *. destruct V as [Hs _].
    unfold create_fields, bind, create_function_spaces. cbn [spaces conf]. rewrite Hs. reflexivity.
  - rewrite (fields_ok_2d Hd). rewrite <- app_assoc. reflexivity.
Qed.

Lemma equations_ok : forall i k n j ini r sp e t x, sp = Some (i, c) ->
  create_equations three_d (mkSt c sp (Some (mk_f i k)) e t x ini n j r) =
  Ok (mkSt c sp (Some (mk_f i k)) (Some (mk_e k n)) t x ini (S n) (j ++ [KEquations]) r).
Proof.
  apply equations_gen. intros Hd. destruct Hvalid as [_ [_ [_ [_ [_ V2]]]]].
  destruct (V2 Hd) as [Hf [Hx _]]. auto.
Qed.

Lemma needed_parts : three_d = false ->
  exists ps, needed c = Some ps /\ incl ps (parts_of three_d c).
Proof.
  intros Hd. pose proof Hvalid as V. unfold valid in V. rewrite Hd in V.
  destruct V as [_ [_ [_ [_ [_ V2]]]]]. destruct (V2 eq_refl) as [_ [_ [_ [Hn Ht]]]].
  unfold needed, parts_of. rewrite Hd.
  destruct (c_nonhydro c) eqn:En.
  - destruct (Hn eq_refl) as [-> [-> ->]]. exists [Sw; Fs]. split; [reflexivity | cbn; intros p Hp; cbn in *; tauto].
  - destruct (c_tracers c) as [|l ls].
    + destruct (c_susp c), (c_exner c), (c_tracer_only c); cbn;
        eexists; (split; [reflexivity |]); intros p Hp; cbn in *; tauto.
    + destruct Ht as [-> ->]; [discriminate |]. cbn [orb].
      eexists; split; [reflexivity |]. cbn [app]. rewrite app_nil_r.
      destruct (c_tracer_only c); cbn [app]; intros p Hp; [right; exact Hp | exact Hp].
Qed.

Lemma stepper_ok : forall i k m n j ini r t x,
  create_timestepper three_d (mkSt c (Some (i, c)) (Some (mk_f i k)) (Some (mk_e k m)) t x ini n j r) =
  Ok (mkSt c (Some (i, c)) (Some (mk_f i k)) (Some (mk_e k m)) (Some (mk_t k m n)) x ini (S n) (j ++ [KStepper]) r).
Proof.
  intros i k m n j ini r t x.
  assert (Hdt : c_dt_ok c = true) by (destruct Hvalid as [_ [_ [H _]]]; exact H).
  assert (D : three_d = true \/ three_d = false) by (destruct three_d; auto).
  unfold create_timestepper, bind. cbn [eqs].
  destruct D as [Hd | Hd].
  - rewrite Hd. cbn. unfold parts_of. rewrite Hdt, Hd. reflexivity.
  - destruct (needed_parts Hd) as [ps [E Hi]]. 
    replace (if three_d then _ else _) with
      (match needed c with
       | None => Raise EKind (mkSt c (Some (i, c)) (Some (mk_f i k)) (Some (mk_e k m)) t x ini n j r)
       | Some ps =>
           if has_parts ps (mkSt c (Some (i, c)) (Some (mk_f i k)) (Some (mk_e k m)) t x ini n j r)
              && has_fields c (mkSt c (Some (i, c)) (Some (mk_f i k)) (Some (mk_e k m)) t x ini n j r)
           then Ok (mkSt c (Some (i, c)) (Some (mk_f i k)) (Some (mk_e k m)) (Some (mk_t k m n)) x ini (S n) (j ++ [KStepper]) r)
           else Raise EMissing (mkSt c (Some (i, c)) (Some (mk_f i k)) (Some (mk_e k m)) t x ini n j r)
       end)
      by (rewrite Hd; cbn [conf]; rewrite Hdt; reflexivity).
    rewrite E.
    assert (Hp : has_parts ps (mkSt c (Some (i, c)) (Some (mk_f i k)) (Some (mk_e k m)) t x ini n j r) = true).
    { unfold has_parts. cbn [eqs]. unfold mk_e. cbn [e_parts]. apply parts_in. exact Hi. }
    assert (Hf : has_fields c (mkSt c (Some (i, c)) (Some (mk_f i k)) (Some (mk_e k m)) t x ini n j r) = true).
    { unfold has_fields. cbn [fields]. unfold mk_f, labels_of. cbn [f_labels]. rewrite Hd.
      apply forallb_forall. intros l Hl. apply memb_in. exact Hl. }
    rewrite Hp, Hf. reflexivity.
Qed.

Lemma exporters_ok : forall i k m p n j ini r x,
  create_exporters three_d (mkSt c (Some (i, c)) (Some (mk_f i k)) (Some (mk_e k m)) (Some (mk_t k m p)) x ini n j r) =
  Ok (mkSt c (Some (i, c)) (Some (mk_f i k)) (Some (mk_e k m)) (Some (mk_t k m p)) (Some (mk_x k n)) ini (S n) (j ++ [KExporters]) r).
Proof.
  intros i k m p n j ini r x.
  assert (H : c_no_exports c = false -> c_vtk_ok c = true /\ c_exports_ok c = true)
    by (destruct Hvalid as [_ [_ [_ [H _]]]]; exact H).
  unfold create_exporters, bind. cbn [stepper]. unfold note, put_exporters.
  cbn [conf cur_fields fields]. unfold mk_x.
  destruct (c_no_exports c).
  - cbn. reflexivity.
  - destruct H as [H1 H2]; [reflexivity |]. rewrite H1. cbn. rewrite H2. reflexivity.
Qed.

(** the stages of a set-up *)
Inductive stage : nat -> st -> Prop :=
| Stage0 : stage 0 (mkSt c None None None None None false 0 [] reg)
| Stage1 : forall i n, stage 1 (mkSt c (Some (i, c)) None None None None false n [KSpaces] reg)
| Stage2 : forall i k n j, j = [KSpaces] \/ (three_d = true /\ j = [KSpaces; KSpaces]) ->
    stage 2 (mkSt c (Some (i, c)) (Some (mk_f i k)) None None None false n (j ++ [KFields]) reg_of)
| Stage3 : forall i k m n j, j = [KSpaces] \/ (three_d = true /\ j = [KSpaces; KSpaces]) ->
    stage 3 (mkSt c (Some (i, c)) (Some (mk_f i k)) (Some (mk_e k m)) None None false n (j ++ [KFields; KEquations]) reg_of)
| Stage4 : forall i k m p n j, j = [KSpaces] \/ (three_d = true /\ j = [KSpaces; KSpaces]) ->
    stage 4 (mkSt c (Some (i, c)) (Some (mk_f i k)) (Some (mk_e k m)) (Some (mk_t k m p)) None false n
                  (j ++ [KFields; KEquations; KStepper]) reg_of)
| Stage5 : forall i k m p q n j ini, j = [KSpaces] \/ (three_d = true /\ j = [KSpaces; KSpaces]) ->
    stage 5 (mkSt c (Some (i, c)) (Some (mk_f i k)) (Some (mk_e k m)) (Some (mk_t k m p)) (Some (mk_x k q)) ini n
                  (j ++ [KFields; KEquations; KStepper; KExporters]) reg_of).

Lemma reach1 : forall s, stage 0 s -> exists s', create_function_spaces s = Ok s' /\ stage 1 s'.
Proof.
  intros s H. inversion H; subst. rewrite spaces_ok by reflexivity.
  eexists; split; [reflexivity |]. unfold put_spaces. cbn. constructor.
Qed.
Lemma reach2 : forall s n, n < 2 -> stage n s -> exists s', create_fields three_d s = Ok s' /\ stage 2 s'.
Proof.
  intros s n Hn H.
  assert (D : three_d = true \/ three_d = false) by (destruct three_d; auto).
  destruct D as [Hd | Hd].
  - inversion H; subst; try lia; rewrite (fields_ok_3d Hd);
      (eexists; split; [reflexivity |]); cbn [app].
    + apply (Stage2 _ _ _ [KSpaces]). left. reflexivity.
    + apply (Stage2 _ _ _ [KSpaces; KSpaces]). right. split; [exact Hd | reflexivity].
  - inversion H; subst; try lia.
    + rewrite (fields_ok_2d_bare Hd). eexists; split; [reflexivity |].
      cbn [app]. apply (Stage2 _ _ _ [KSpaces]). left. reflexivity.
    + rewrite (fields_ok_2d Hd). eexists; split; [reflexivity |].
      apply (Stage2 _ _ _ [KSpaces]). left. reflexivity.
Qed.
Lemma reach3 : forall s n, n < 3 -> stage n s -> exists s', create_equations three_d s = Ok s' /\ stage 3 s'.
Proof.
  assert (H2 : forall s, stage 2 s -> exists s', create_equations three_d s = Ok s' /\ stage 3 s').
  { intros s H. inversion H; subst. rewrite (equations_ok i) by reflexivity.
    eexists; split; [reflexivity |]. rewrite <- app_assoc. cbn [app]. apply Stage3. assumption. }
  intros s n Hn H. destruct (Nat.eq_dec n 2) as [->|Hne]; [apply H2, H |].
  destruct (reach2 s n ltac:(lia) H) as [s1 [E1 S1]].
  destruct (H2 s1 S1) as [s2 [E2 S2]]. exists s2. split; [| exact S2].
  transitivity (create_equations three_d s1); [| exact E2].
  unfold create_equations. inversion H; subst; try lia; cbn [fields]; rewrite E1; cbn [bind];
    inversion S1; subst; reflexivity.
Qed.
Lemma reach4 : forall s n, n < 4 -> stage n s -> exists s', create_timestepper three_d s = Ok s' /\ stage 4 s'.
Proof.
  assert (H3 : forall s, stage 3 s -> exists s', create_timestepper three_d s = Ok s' /\ stage 4 s').
  { intros s H. inversion H; subst. rewrite stepper_ok.
    eexists; split; [reflexivity |]. rewrite <- app_assoc. cbn [app]. apply Stage4. assumption. }
  intros s n Hn H. destruct (Nat.eq_dec n 3) as [->|Hne]; [apply H3, H |].
  destruct (reach3 s n ltac:(lia) H) as [s1 [E1 S1]].
  destruct (H3 s1 S1) as [s2 [E2 S2]]. exists s2. split; [| exact S2].
  transitivity (create_timestepper three_d s1); [| exact E2].
  unfold create_timestepper. inversion H; subst; try lia; cbn [eqs]; rewrite E1; cbn [bind];
    inversion S1; subst; reflexivity.
Qed.
Lemma reach5 : forall s n, n < 5 -> stage n s -> exists s', create_exporters three_d s = Ok s' /\ stage 5 s'.
Proof.
  assert (H4 : forall s, stage 4 s -> exists s', create_exporters three_d s = Ok s' /\ stage 5 s').
  { intros s H. inversion H; subst. rewrite exporters_ok.
    eexists; split; [reflexivity |]. rewrite <- app_assoc. cbn [app]. apply Stage5. assumption. }
  intros s n Hn H. destruct (Nat.eq_dec n 4) as [->|Hne]; [apply H4, H |].
  destruct (reach4 s n ltac:(lia) H) as [s1 [E1 S1]].
  destruct (H4 s1 S1) as [s2 [E2 S2]]. exists s2. split; [| exact S2].
  transitivity (create_exporters three_d s1); [| exact E2].
  unfold create_exporters. inversion H; subst; try lia; cbn [stepper]; rewrite E1; cbn [bind];
    inversion S1; subst; reflexivity.
Qed.

Lemma init_ok : forall s n, stage n s ->
  exists s', initialize three_d s = Ok s' /\ stage 5 s' /\ initialized s' = true.
Proof.
  intros s n H.
  assert (Hn : n <= 5) by (inversion H; lia).
  assert (A1 : exists s1 n1, (match spaces s with None => create_function_spaces s | Some _ => Ok s end) = Ok s1
                /\ stage n1 s1 /\ 1 <= n1).
  { destruct (Nat.eq_dec n 0) as [->|Hne].
    - destruct (reach1 s H) as [s1 [E1 S1]]. exists s1, 1. inversion H; subst. cbn [spaces]. rewrite E1. auto.
    - exists s, n. inversion H; subst; try lia; cbn [spaces]; (split; [reflexivity |]); (split; [exact H | lia]). }
  destruct A1 as [s1 [n1 [E1 [S1 L1]]]].
  assert (A2 : exists s2 n2, (match eqs s1 with None => create_equations three_d s1 | Some _ => Ok s1 end) = Ok s2
                /\ stage n2 s2 /\ 3 <= n2).
  { destruct (le_lt_dec 3 n1) as [Hge|Hlt].
    - exists s1, n1. inversion S1; subst; try lia; cbn [eqs]; (split; [reflexivity |]); (split; [exact S1 | lia]).
    - destruct (reach3 s1 n1 Hlt S1) as [s2 [E2 S2]]. exists s2, 3.
      inversion S1; subst; try lia; cbn [eqs]; rewrite E2; auto. }
  destruct A2 as [s2 [n2 [E2 [S2 L2]]]].
  assert (A3 : exists s3 n3, (match stepper s2 with None => create_timestepper three_d s2 | Some _ => Ok s2 end) = Ok s3
                /\ stage n3 s3 /\ 4 <= n3).
  { destruct (le_lt_dec 4 n2) as [Hge|Hlt].
    - exists s2, n2. inversion S2; subst; try lia; cbn [stepper]; (split; [reflexivity |]); (split; [exact S2 | lia]).
    - destruct (reach4 s2 n2 Hlt S2) as [s3 [E3 S3]]. exists s3, 4.
      inversion S2; subst; try lia; cbn [stepper]; rewrite E3; auto. }
  destruct A3 as [s3 [n3 [E3 [S3 L3]]]].
  assert (A4 : exists s4, (match exporters s3 with None => create_exporters three_d s3 | Some _ => Ok s3 end) = Ok s4
                /\ stage 5 s4).
  { destruct (le_lt_dec 5 n3) as [Hge|Hlt].
    - exists s3. inversion S3; subst; try lia; cbn [exporters]; (split; [reflexivity | exact S3]).
    - destruct (reach5 s3 n3 Hlt S3) as [s4 [E4 S4]]. exists s4.
      inversion S3; subst; try lia; cbn [exporters]; rewrite E4; auto. }
  destruct A4 as [s4 [E4 S4]].
  exists (set_initialized s4). unfold initialize. rewrite E1. cbn [bind]. rewrite E2. cbn [bind].
  rewrite E3. cbn [bind]. rewrite E4. cbn [bind]. split; [reflexivity |]. split; [| reflexivity].
  inversion S4; subst. unfold set_initialized. cbn. apply Stage5. assumption.
Qed.

(** an orderly call keeps a solver in a stage *)
Lemma stage_step : forall s n o, stage n s ->
  match o with Configure _ => False | Create k => exists_ k s = false | _ => True end ->
  exists s' n', step three_d s o = Ok s' /\ stage n' s' /\ n <= n' /\
    (initialized s = true -> initialized s' = true) /\
    (o = Initialize \/ o = Use -> initialized s' = true).
Proof.
  intros s n o H Ho.
  assert (Hini : forall m t, stage m t -> m < 5 -> initialized t = false) by (intros m t Hm L; inversion Hm; subst; try lia; reflexivity).
  destruct o as [k| | |c'].
  - destruct k; cbn [step exists_] in *.
    + assert (n = 0) as -> by (inversion H; subst; cbn in Ho; try discriminate; reflexivity).
      destruct (reach1 s H) as [s' [E S']]. exists s', 1. repeat split; auto; try lia.
      * rewrite (Hini _ _ H ltac:(lia)). discriminate.
      * intros [A|A]; discriminate.
    + assert (L : n < 2) by (inversion H; subst; cbn in Ho; try discriminate; lia).
      destruct (reach2 s n L H) as [s' [E S']]. exists s', 2. repeat split; auto; try lia.
      * rewrite (Hini _ _ H ltac:(lia)). discriminate.
      * intros [A|A]; discriminate.
    + assert (L : n < 3) by (inversion H; subst; cbn in Ho; try discriminate; lia).
      destruct (reach3 s n L H) as [s' [E S']]. exists s', 3. repeat split; auto; try lia.
      * rewrite (Hini _ _ H ltac:(lia)). discriminate.
      * intros [A|A]; discriminate.
    + assert (L : n < 4) by (inversion H; subst; cbn in Ho; try discriminate; lia).
      destruct (reach4 s n L H) as [s' [E S']]. exists s', 4. repeat split; auto; try lia.
      * rewrite (Hini _ _ H ltac:(lia)). discriminate.
      * intros [A|A]; discriminate.
    + assert (L : n < 5) by (inversion H; subst; cbn in Ho; try discriminate; lia).
      destruct (reach5 s n L H) as [s' [E S']]. exists s', 5. repeat split; auto; try lia.
      * rewrite (Hini _ _ H ltac:(lia)). discriminate.
      * intros [A|A]; discriminate.
  - destruct (init_ok s n H) as [s' [E [S' I']]]. exists s', 5. cbn [step].
    assert (n <= 5) by (inversion H; lia). repeat split; auto.
  - cbn [step]. destruct (initialized s) eqn:Ei.
    + exists s, n. repeat split; auto.
    + destruct (init_ok s n H) as [s' [E [S' I']]]. exists s', 5.
      assert (n <= 5) by (inversion H; lia). repeat split; auto.
  - contradiction.
Qed.

Lemma stage_run : forall ops s n, stage n s -> orderly three_d s ops ->
  smooth three_d s ops /\
  exists n', stage n' (run three_d s ops) /\
    (initialized s = true -> initialized (run three_d s ops) = true) /\
    (In Initialize ops \/ In Use ops -> initialized (run three_d s ops) = true).
Proof.
  induction ops as [|o ops IH]; intros s n H Ho.
  - split; [exact Logic.I |]. exists n. cbn. repeat split; auto. intros [[]|[]].
  - destruct Ho as [Ho Hr]. destruct (stage_step s n o H Ho) as [s' [n' [E [S' [L [I1 I2]]]]]].
    rewrite E in Hr. cbn [final] in Hr.
    destruct (IH s' n' S' Hr) as [Hs [n'' [S'' [J1 J2]]]].
    split; [exists s'; auto |].
    exists n''. unfold run in *. cbn [fold_left]. rewrite E. cbn [final].
    split; [exact S'' |]. split; [auto |].
    intros [[A|A]|[A|A]]; auto.
Qed.

Lemma stage_done : forall s n, stage n s -> initialized s = true ->
  wired s /\ complete c s /\
  built KFields s = 1 /\ built KEquations s = 1 /\ built KStepper s = 1 /\ built KExporters s = 1 /\
  (built KSpaces s = 1 \/ (three_d = true /\ built KSpaces s = 2)).
Proof.
  intros s n H Hi. inversion H; subst; try discriminate Hi.
  split; [| split].
  - unfold wired. cbn. do 6 eexists. repeat (split; [reflexivity |]). reflexivity.
  - unfold complete. cbn. do 5 eexists. repeat (split; [reflexivity |]).
    split; [cbn [e_parts mk_e]; unfold parts_of; destruct three_d; left; reflexivity |].
    repeat (split; [reflexivity |]). reflexivity.
  - unfold built. cbn [journal].
    match goal with J : _ = [KSpaces] \/ _ |- _ => destruct J as [-> | [Hd ->]] end; cbn; repeat split; auto.
Qed.
End Stages.
