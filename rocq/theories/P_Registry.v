(** C58: the field registry shared by all solvers of a process. *)
From Coq Require Import String Ascii List Bool Arith Lia.
From Verif Require Import Exporter_Model Callback_Proofs Registry_Model.
Import ListNotations.
Open Scope string_scope.

(* ------------------------------------------------------------------ *)
(** * Lemmas *)

Lemma nth_set_nth {A} (l : list A) : forall i (a : A) (j : nat), nth_error (set_nth l i a) j
  = if Nat.eqb i j then (match nth_error l i with Some _ => Some a | None => None end) else nth_error l j.
Proof.
  induction l as [|x l IH]; intros i a j.
  - destruct i, j; cbn; try reflexivity. now destruct (Nat.eqb i j).
  - destruct i, j; cbn; try reflexivity. apply IH.
Qed.
Lemma dict_get_del {A} (d : list (string * A)) k k' :
  dict_get (dict_del d k) k' = if String.eqb k' k then None else dict_get d k'.
Proof.
  induction d as [|(a, v) d IH]; cbn; [now destruct (String.eqb k' k)|].
  unfold dict_del in *. cbn. destruct (String.eqb_spec a k) as [->|N]; cbn.
  - rewrite IH. destruct (String.eqb_spec k' k); reflexivity.
  - rewrite IH. destruct (String.eqb_spec k' a) as [->|]; [|reflexivity].
    destruct (String.eqb_spec a k); [contradiction|reflexivity].
Qed.

(** how one operation changes the metadata: it adds a new label, or drops 'tracer_2d',
    or leaves it alone *)
Lemma step_reg : forall p o k m, k <> "tracer_2d" -> dict_get (p_reg p) k = Some m ->
  dict_get (p_reg (fst (step p o))) k = Some m.
Proof.
  assert (SF : forall p i k v, p_reg (fst (set_field p i k v)) = p_reg p).
  { intros p i k v. unfold set_field. destruct (nth_error (p_solvers p) i); [|reflexivity].
    destruct (check_inputs (p_reg p) k v); reflexivity. }
  intros p [b| |i k0 v|i v l n f s u pp] k m Hk Hm; cbn [step].
  - unfold new_solver2d.
    match goal with |- context [set_field ?q ?i ?kk ?v] => pose proof (SF q i kk v) as E; destruct (set_field q i kk v) as [p2 [e|]] end;
      cbn [fst p_reg] in *; [exact Hm|].
    rewrite dict_get_del. destruct (String.eqb_spec k "tracer_2d"); [contradiction|]. rewrite E. exact Hm.
  - exact Hm.
  - rewrite SF. exact Hm.
  - unfold add_new_field. destruct v as [id mx| |]; [|exact Hm|exact Hm].
    destruct (has (p_reg p) l) eqn:HL; cbn [orb]; [exact Hm|].
    destruct (has_space l || has_space f)%bool; [exact Hm|].
    match goal with |- context [set_field ?q ?i ?kk ?v] => pose proof (SF q i kk v) as E; destruct (set_field q i kk v) as [p2 [e|]] end;
      cbn [fst p_reg] in *.
    + rewrite E. rewrite dict_get_set. destruct (String.eqb_spec k l) as [->|]; [|exact Hm].
      unfold has in HL. rewrite Hm in HL. discriminate.
    + assert (G : dict_get (p_reg p2) k = Some m).
      { rewrite E, dict_get_set. destruct (String.eqb_spec k l) as [->|]; [|exact Hm].
        unfold has in HL. rewrite Hm in HL. discriminate. }
      destruct pp as [g|]; [|exact G]. destruct (nth_error (p_solvers p2) i); exact G.
Qed.

(* ------------------------------------------------------------------ *)
(** * Properties *)

(** Metadata, once there, never changes, whatever solvers and fields come later: a field
    keeps its short name and file name for the life of the process. The label
    'tracer_2d' is the exception. *)
Theorem C58_metadata_stable : forall ops p k m, k <> "tracer_2d" -> dict_get (p_reg p) k = Some m ->
  dict_get (p_reg (run p ops)) k = Some m.
Proof.
  induction ops as [|o ops IH]; intros p k m Hk Hm; [exact Hm|].
  cbn [run fold_left]. apply IH; [exact Hk|]. apply step_reg; assumption.
Qed.

(** A successful add_new_field: the metadata are the given ones, the field is in the
    solver, the Function carries the label as its name, a preprocessor is registered if
    given; all other labels, fields, solvers and names are as before. *)
Theorem C58_add_field : forall p i v label name file short u pp p',
  add_new_field p i v label name file short u pp = (p', None) ->
  (exists id mx, v = VFun id mx /\ p_name p' id = label /\ forall n, n <> id -> p_name p' n = p_name p n)
  /\ dict_get (p_reg p) label = None
  /\ dict_get (p_reg p') label
     = Some (mk_meta name (match short with Some s => if String.eqb s "" then name else s | None => name end) u file)
  /\ (forall k, k <> label -> dict_get (p_reg p') k = dict_get (p_reg p) k)
  /\ (exists s s', nth_error (p_solvers p) i = Some s /\ nth_error (p_solvers p') i = Some s'
      /\ (forall k, dict_get (s_fields s') k = if String.eqb k label then Some v else dict_get (s_fields s) k)
      /\ (forall k, dict_get (s_preproc s') k
                    = if String.eqb k label then match pp with Some f => Some f | None => dict_get (s_preproc s) k end
                      else dict_get (s_preproc s) k))
  /\ forall j, j <> i -> nth_error (p_solvers p') j = nth_error (p_solvers p) j.
Proof.
  intros p i v label name file short u pp p' H. unfold add_new_field in H.
  destruct v as [id mx| |]; [|discriminate|discriminate].
  destruct (has (p_reg p) label) eqn:HL; cbn [orb] in H; [discriminate|].
  destruct (has_space label || has_space file)%bool; [discriminate|].
  set (sh := match short with Some s => if String.eqb s "" then name else s | None => name end) in *.
  unfold set_field in H. cbn [p_solvers p_reg p_name] in H.
  destruct (nth_error (p_solvers p) i) as [s|] eqn:Ei; [|discriminate].
  assert (CK : check_inputs (dict_set (p_reg p) label (mk_meta name sh u file)) label (VFun id mx) = None).
  { unfold check_inputs, has. rewrite dict_get_set, String.eqb_refl. now destruct mx. }
  rewrite CK in H. cbn [p_reg p_solvers p_name] in H.
  rewrite nth_set_nth, Nat.eqb_refl, Ei in H. cbn [s_fields s_preproc] in H.
  assert (NL : dict_get (p_reg p) label = None).
  { unfold has in HL. destruct (dict_get (p_reg p) label); [discriminate|reflexivity]. }
  assert (P' : p_reg p' = dict_set (p_reg p) label (mk_meta name sh u file)
               /\ p_name p' = rename (p_name p) label (VFun id mx)).
  { destruct pp; injection H as <-; split; reflexivity. }
  destruct P' as (PR & PN).
  split; [|split; [exact NL|split; [|split; [|split]]]].
  - exists id, mx. split; [reflexivity|]. rewrite PN. cbn. rewrite Nat.eqb_refl. split; [reflexivity|].
    intros n Hn. destruct (Nat.eqb_spec n id); [contradiction|reflexivity].
  - rewrite PR, dict_get_set, String.eqb_refl. reflexivity.
  - intros k Hk. rewrite PR, dict_get_set. destruct (String.eqb_spec k label); [contradiction|reflexivity].
  - exists s. destruct pp as [f|]; injection H as <-; cbn [p_solvers].
    + eexists. split; [reflexivity|]. split; [rewrite nth_set_nth, Nat.eqb_refl, nth_set_nth, Nat.eqb_refl, Ei; reflexivity|].
      cbn [s_fields s_preproc]. split; intro k; rewrite dict_get_set; reflexivity.
    + eexists. split; [reflexivity|]. split; [rewrite nth_set_nth, Nat.eqb_refl, Ei; reflexivity|].
      cbn [s_fields s_preproc]. split; intro k; [rewrite dict_get_set; reflexivity|]. destruct (String.eqb k label); reflexivity.
  - intros j Hj. destruct pp as [f|]; injection H as <-; cbn [p_solvers];
      rewrite !nth_set_nth; destruct (Nat.eqb_spec i j); try (subst; contradiction); reflexivity.
Qed.

(** add_new_field of an existing solver succeeds exactly if a Function is given, the
    label is new in the process, and neither label nor file name contains a space; a
    refused call changes nothing. *)
Theorem C58_add_field_accepted : forall p i v label name file short u pp,
  nth_error (p_solvers p) i <> None ->
  let r := add_new_field p i v label name file short u pp in
  (snd r = None <-> ((exists id mx, v = VFun id mx) /\ dict_get (p_reg p) label = None
                     /\ has_space label = false /\ has_space file = false))
  /\ (snd r <> None -> fst r = p).
Proof.
  intros p i v label name file short u pp Hi r. subst r. unfold add_new_field.
  destruct v as [id mx| |].
  2,3: cbn; split; [split; [discriminate|intros ((? & ? & E) & _); discriminate]|reflexivity].
  unfold has. destruct (dict_get (p_reg p) label) as [m|] eqn:EL; cbn [orb].
  { cbn. split; [split; [discriminate|intros (_ & E & _); discriminate]|reflexivity]. }
  destruct (has_space label) eqn:E1; cbn [orb].
  { cbn. split; [split; [discriminate|intros (_ & _ & E & _); discriminate]|reflexivity]. }
  destruct (has_space file) eqn:E2.
  { cbn. split; [split; [discriminate|intros (_ & _ & _ & E); discriminate]|reflexivity]. }
  unfold set_field. cbn [p_solvers p_reg p_name].
  destruct (nth_error (p_solvers p) i) as [s|] eqn:Ei; [|contradiction].
  unfold check_inputs, has. rewrite dict_get_set, String.eqb_refl.
  assert (X : forall A (b : bool) (x y : A), (if b then x else x) = x) by (intros ? []; reflexivity).
  destruct mx; cbn [p_solvers]; rewrite nth_set_nth, Nat.eqb_refl, Ei; (destruct pp; cbn [fst snd];
    (split; [split; [intros _; repeat split; eauto|reflexivity]|intro C; contradiction])).
Qed.

(** A label is good for one field in the life of a process: once any solver has
    registered it, no solver, old or new, can register it again. *)
Theorem C58_label_once : forall ops p i v label name file short u pp p' j v' name' file' short' u' pp',
  label <> "tracer_2d" ->
  add_new_field p i v label name file short u pp = (p', None) ->
  add_new_field (run p' ops) j v' label name' file' short' u' pp' = (run p' ops, Some RAssertion).
Proof.
  intros ops p i v label name file short u pp p' j v' name' file' short' u' pp' Hl H.
  destruct (C58_add_field _ _ _ _ _ _ _ _ _ _ H) as (_ & _ & HM & _).
  pose proof (C58_metadata_stable ops p' label _ Hl HM) as S.
  unfold add_new_field. destruct v'; [|reflexivity|reflexivity]. unfold has. rewrite S. reflexivity.
Qed.

(** Every field of every solver can be exported: after any history, a non-mixed field
    has metadata, except 'tracer_2d'. *)
Definition exportable (p : proc) : Prop :=
  forall i s k v, nth_error (p_solvers p) i = Some s -> dict_get (s_fields s) k = Some v ->
    k <> "tracer_2d" -> (forall id, v <> VFun id true) -> dict_get (p_reg p) k <> None.
Lemma set_field_fields : forall p i k v, forall j s', nth_error (p_solvers (fst (set_field p i k v))) j = Some s' ->
  forall k' v', dict_get (s_fields s') k' = Some v' ->
  (exists s, nth_error (p_solvers p) j = Some s /\ dict_get (s_fields s) k' = Some v')
  \/ (k' = k /\ v' = v /\ check_inputs (p_reg p) k v = None).
Proof.
  intros p i k v j s' Hj k' v' Hk'. unfold set_field in Hj.
  destruct (nth_error (p_solvers p) i) as [s|] eqn:Ei; [|left; eauto].
  destruct (check_inputs (p_reg p) k v) eqn:CK; cbn [fst p_solvers] in Hj; [left; eauto|].
  rewrite nth_set_nth, Ei in Hj. destruct (Nat.eqb_spec i j) as [<-|]; [|left; eauto].
  injection Hj as <-. cbn [s_fields] in Hk'. rewrite dict_get_set in Hk'.
  destruct (String.eqb_spec k' k) as [->|]; [right; injection Hk' as <-; auto|left; eauto].
Qed.
Lemma checked_has : forall reg k v, check_inputs reg k v = None -> (forall id, v <> VFun id true) -> dict_get reg k <> None.
Proof.
  intros reg k v H Hv. unfold check_inputs, has in H. destruct v as [id [|]| |]; try discriminate.
  - now specialize (Hv id).
  - destruct (dict_get reg k); [discriminate|discriminate H].
  - destruct (dict_get reg k); [discriminate|discriminate H].
Qed.
Theorem C58_fields_have_metadata : forall ops names, exportable (run (start names) ops).
Proof.
  intros ops names.
  assert (G : forall ops p, exportable p -> exportable (run p ops)).
  2:{ apply G. intros i s k v Hi. cbn in Hi. destruct i; discriminate. }
  clear. induction ops as [|o ops IH]; intros p HE; [exact HE|]. cbn [run fold_left]. apply IH. clear IH.
  intros j s' k v Hj Hk Ht Hv C.
  destruct o as [b| |i k0 v0|i v0 l n f sh u pp]; cbn [step] in Hj, C.
  - assert (P : nth_error (p_solvers (fst (new_solver2d p b))) j = Some s' ->
               (exists s, nth_error (p_solvers p) j = Some s /\ dict_get (s_fields s) k = Some v)
               \/ dict_get (p_reg (fst (new_solver2d p b))) k <> None).
    { unfold new_solver2d.
      match goal with |- context [set_field ?q ?i ?kk ?vv] =>
        pose proof (set_field_fields q i kk vv) as SF; destruct (set_field q i kk vv) as [p2 [e|]] eqn:ES end; cbn [fst p_solvers p_reg]; intro Hj'.
      - left. eauto.
      - destruct (SF j s' Hj' k v Hk) as [(s & Hs & Hg)|(-> & -> & CK)].
        + cbn [p_solvers] in Hs. destruct (Nat.lt_ge_cases j (List.length (p_solvers p))) as [L|L].
          * left. exists s. rewrite nth_error_app1 in Hs by exact L. auto.
          * rewrite nth_error_app2 in Hs by exact L. destruct (j - List.length (p_solvers p)) as [|[|]]; cbn in Hs; try discriminate.
            injection Hs as <-. discriminate.
        + right. rewrite dict_get_del. cbn. unfold set_field in ES. cbn [p_reg] in ES.
          match type of ES with match ?X with _ => _ end = _ => destruct X end; [|discriminate].
          destruct (check_inputs (p_reg p) "bathymetry_2d" b) eqn:CB; [discriminate|]. injection ES as <-. cbn [p_reg].
          exact (checked_has _ _ _ CB Hv). }
    destruct (P Hj) as [(s & Hs & Hg)|NN]; [|contradiction].
    pose proof (HE j s k v Hs Hg Ht Hv) as M. destruct (dict_get (p_reg p) k) as [m|] eqn:EM; [|contradiction].
    pose proof (step_reg p (New2d b) k m Ht EM) as S. cbn [step] in S. rewrite S in C. discriminate.
  - cbn [fst new_solver3d p_solvers p_reg] in Hj, C. unfold new_solver3d in Hj, C. cbn [p_solvers p_reg] in Hj, C.
    destruct (Nat.lt_ge_cases j (List.length (p_solvers p))) as [L|L].
    + rewrite nth_error_app1 in Hj by exact L. exact (HE j s' k v Hj Hk Ht Hv C).
    + rewrite nth_error_app2 in Hj by exact L. destruct (j - List.length (p_solvers p)) as [|[|]]; cbn in Hj; try discriminate.
      injection Hj as <-. discriminate.
  - destruct (set_field_fields p i k0 v0 j s' Hj k v Hk) as [(s & Hs & Hg)|(-> & -> & CK)].
    + pose proof (HE j s k v Hs Hg Ht Hv) as M. destruct (dict_get (p_reg p) k) as [m|] eqn:EM; [|contradiction].
      pose proof (step_reg p (SetField i k0 v0) k m Ht EM) as S. cbn [step] in S. rewrite S in C. discriminate.
    + pose proof (checked_has _ _ _ CK Hv) as M. destruct (dict_get (p_reg p) k0) as [m|] eqn:EM; [|contradiction].
      pose proof (step_reg p (SetField i k0 v0) k0 m Ht EM) as S. cbn [step] in S. rewrite S in C. discriminate.
  - destruct (add_new_field p i v0 l n f sh u pp) as [p' [e|]] eqn:EA; cbn [fst] in Hj, C.
    + assert (EP : nth_error (p_solvers p') j = nth_error (p_solvers p) j).
      { unfold add_new_field in EA. destruct v0; [|injection EA as <- <-; reflexivity|injection EA as <- <-; reflexivity].
        match type of EA with (if ?B then _ else _) = _ => destruct B end; [injection EA as <- <-; reflexivity|].
        unfold set_field in EA. cbn [p_solvers p_reg] in EA. destruct (nth_error (p_solvers p) i) eqn:Ei.
        - match type of EA with context [check_inputs ?R ?K ?W] => destruct (check_inputs R K W) end.
          + injection EA as <- <-. reflexivity.
          + destruct pp; [|discriminate]. destruct (nth_error _ i) in EA; discriminate.
        - injection EA as <- <-. reflexivity. }
      rewrite EP in Hj. pose proof (HE j s' k v Hj Hk Ht Hv) as M.
      destruct (dict_get (p_reg p) k) as [m|] eqn:EM; [|contradiction].
      pose proof (step_reg p (AddField i v0 l n f sh u pp) k m Ht EM) as S. cbn [step] in S. rewrite EA in S. cbn [fst] in S.
      rewrite S in C. discriminate.
    + destruct (C58_add_field _ _ _ _ _ _ _ _ _ _ EA) as (_ & _ & HM & HR & (s & s1 & Hs & Hs1 & HF & _) & HO).
      destruct (Nat.eq_dec j i) as [->|NJ].
      * rewrite Hs1 in Hj. injection Hj as <-. rewrite HF in Hk. destruct (String.eqb_spec k l) as [->|NK].
        -- rewrite HM in C. discriminate.
        -- rewrite HR in C by exact NK. exact (HE i s k v Hs Hk Ht Hv C).
      * rewrite HO in Hj by exact NJ.
        destruct (String.eqb_spec k l) as [->|NK]; [rewrite HM in C; discriminate|].
        rewrite HR in C by exact NK. exact (HE j s' k v Hj Hk Ht Hv C).
Qed.

(** The fields that the solvers create themselves all have built-in metadata, and no two
    built-in fields share a file name, so their exports never overwrite each other. *)
Theorem C58_builtin_fields : forall names ops k, In k (created_2d ++ created_3d) ->
  dict_get (p_reg (run (start names) ops)) k <> None.
Proof.
  intros names ops k Hk.
  assert (F : forallb (fun k => has builtin k && negb (String.eqb k "tracer_2d"))%bool (created_2d ++ created_3d) = true) by reflexivity.
  rewrite forallb_forall in F. specialize (F k Hk). apply andb_prop in F. destruct F as (F1 & F2).
  unfold has in F1. destruct (dict_get builtin k) as [m|] eqn:E; [|discriminate].
  rewrite (C58_metadata_stable ops (start names) k m); [discriminate| |exact E].
  destruct (String.eqb_spec k "tracer_2d"); [discriminate|assumption].
Qed.
Lemma nodup_files : NoDup (map (fun x => md_file (snd x)) builtin).
Proof.
  assert (D : forall l : list string, (fix nd l := match l with [] => true | x :: r => (negb (existsb (String.eqb x) r) && nd r)%bool end) l = true -> NoDup l).
  { induction l as [|x l IH]; intro H; constructor.
    - apply andb_prop in H. destruct H as (H & _). intro I. apply negb_true_iff in H.
      assert (T : existsb (String.eqb x) l = true) by (apply existsb_exists; exists x; split; [exact I|apply String.eqb_refl]). congruence.
    - apply andb_prop in H. apply IH, H. }
  apply D. reflexivity.
Qed.
Lemma in_dict {A} : forall (d : list (string * A)) k v, dict_get d k = Some v -> In (k, v) d.
Proof.
  induction d as [|(a, x) d IH]; intros k v H; cbn in H; [discriminate|].
  destruct (String.eqb_spec k a) as [->|]; [injection H as <-; now left|right; now apply IH].
Qed.
Theorem C58_builtin_files_distinct : forall k k' s s' f,
  export_meta (start (fun _ => "")) k = Some (s, f) -> export_meta (start (fun _ => "")) k' = Some (s', f) -> k = k'.
Proof.
  intros k k' s s' f H H'. unfold export_meta, start in *. cbn [p_reg] in *.
  destruct (dict_get builtin k) as [m|] eqn:E; [|discriminate]. destruct (dict_get builtin k') as [m'|] eqn:E'; [|discriminate].
  injection H as <- <-. injection H' as <- EF. apply in_dict in E, E'.
  pose proof nodup_files as ND.
  assert (U : forall (l : list (string * meta)) a b, NoDup (map (fun x => md_file (snd x)) l) -> In a l -> In b l ->
             md_file (snd a) = md_file (snd b) -> a = b).
  { clear. induction l as [|x l IH]; [intros a b _ []|]. intros a b ND [->|Ia] [->|Ib] EQ; try reflexivity.
    - inversion ND as [|? ? N1 N2]; subst. exfalso. apply N1. rewrite EQ. now apply in_map with (f := fun x => md_file (snd x)).
    - inversion ND as [|? ? N1 N2]; subst. exfalso. apply N1. rewrite <- EQ. now apply in_map with (f := fun x => md_file (snd x)).
    - inversion ND; subst. now apply IH. }
  pose proof (U builtin _ _ ND E E' (eq_sym EF)) as Q. now injection Q.
Qed.

(** A Function is named after the key under which it was stored last. *)
Definition stores (p : proc) (o : op) (id : nat) (k : string) : Prop :=
  snd (step p o) = None /\
  match o with
  | New2d (VFun n _) => n = id /\ k = "bathymetry_2d"
  | SetField _ k' (VFun n _) => n = id /\ k = k'
  | AddField _ (VFun n _) l _ _ _ _ _ => n = id /\ k = l
  | _ => False
  end.
Definition touches (o : op) (id : nat) : Prop :=
  match o with
  | New2d (VFun n _) | SetField _ _ (VFun n _) | AddField _ (VFun n _) _ _ _ _ _ _ => n = id
  | _ => False
  end.
Lemma name_step : forall p o id, ~ touches o id -> p_name (fst (step p o)) id = p_name p id.
Proof.
  assert (SF : forall p i k v id, (match v with VFun n _ => n <> id | _ => True end) ->
    p_name (fst (set_field p i k v)) id = p_name p id).
  { intros p i k v id H. unfold set_field. destruct (nth_error (p_solvers p) i); [|reflexivity].
    destruct (check_inputs (p_reg p) k v); [reflexivity|]. cbn. destruct v as [n mx| |]; cbn; try reflexivity.
    destruct (Nat.eqb_spec id n); [congruence|reflexivity]. }
  intros p [b| |i k v|i v l n f s u pp] id H; cbn [step touches] in *.
  - unfold new_solver2d.
    match goal with |- context [set_field ?q ?i ?kk ?v] => pose proof (SF q i kk v id) as E; destruct (set_field q i kk v) as [p2 [e|]] end;
      cbn [fst p_name] in *; [reflexivity|]. rewrite E; [reflexivity|]. now destruct b.
  - reflexivity.
  - apply SF. now destruct v.
  - unfold add_new_field. destruct v as [m mx| |]; try reflexivity.
    destruct ((has (p_reg p) l || has_space l || has_space f)%bool); [reflexivity|].
    match goal with |- context [set_field ?q ?i ?kk ?v] => pose proof (SF q i kk v id) as E; destruct (set_field q i kk v) as [p2 [e|]] end;
      cbn [fst p_name] in *.
    + rewrite E; [reflexivity|exact H].
    + specialize (E H). destruct pp; [|exact E]. destruct (nth_error (p_solvers p2) i); exact E.
Qed.
Theorem C58_function_names : forall p o id k later,
  stores p o id k -> Forall (fun o => ~ touches o id) later ->
  p_name (run p (o :: later)) id = k.
Proof.
  intros p o id k later (HS & HO) HF. cbn [run fold_left].
  assert (G : forall ops q, Forall (fun o => ~ touches o id) ops -> p_name (run q ops) id = p_name q id).
  { induction ops as [|x ops IH]; intros q H; [reflexivity|]. inversion H; subst. cbn [run fold_left].
    unfold run in IH. rewrite IH by assumption. now apply name_step. }
  unfold run in G. rewrite G by exact HF. clear G HF later.
  destruct o as [b| |i k' v|i v l n f s u pp]; cbn [step] in *; try contradiction.
  - destruct b as [n mx| |]; try contradiction. destruct HO as (-> & ->). unfold new_solver2d in *. unfold set_field in *.
    cbn [p_solvers p_reg p_name] in *. destruct (nth_error _ _); [|discriminate HS].
    destruct (check_inputs _ _ _); [discriminate HS|]. cbn. now rewrite Nat.eqb_refl.
  - destruct v as [n mx| |]; try contradiction. destruct HO as (-> & ->). unfold set_field in *.
    destruct (nth_error _ _); [|discriminate HS]. destruct (check_inputs _ _ _); [discriminate HS|]. cbn. now rewrite Nat.eqb_refl.
  - destruct v as [m mx| |]; try contradiction. destruct HO as (-> & ->).
    destruct (add_new_field p i (VFun id mx) l n f s u pp) as [p' e] eqn:EA. cbn [fst snd] in *. subst e.
    destruct (C58_add_field _ _ _ _ _ _ _ _ _ _ EA) as ((id' & mx' & EV & EN & _) & _). injection EV as <- <-. exact EN.
Qed.

(** Solvers of one process are not independent. *)
Definition tracer (i : nat) (id : nat) (label file : string) : op :=
  AddField i (VFun id false) label "Tracer" file None "-" None.
(** a second solver with the same tracer label cannot be set up, although it could in a
    process of its own *)
Theorem C58_independent_refuted : exists ops names o,
  snd (step (run (start names) [New2d (VFun 0 false)]) (o 0)) = None /\
  snd (step (run (start names) ops) (o 1)) = Some RAssertion /\
  ops = [New2d (VFun 0 false); o 0; New2d (VFun 1 false)].
Proof.
  exists [New2d (VFun 0 false); tracer 0 5 "dye_2d" "dye"; New2d (VFun 1 false)], (fun _ => ""), (fun i => tracer i 5 "dye_2d" "dye").
  split; [|split]; reflexivity.
Qed.
(** for 'tracer_2d' the second solver can be set up, but the first one's field loses its
    metadata and can no longer be exported *)
Theorem C58_tracer_2d_refuted : exists ops names,
  (exists s, nth_error (p_solvers (run (start names) ops)) 0 = Some s /\ dict_get (s_fields s) "tracer_2d" <> None) /\
  export_meta (run (start names) ops) "tracer_2d" = None.
Proof.
  exists [New2d (VFun 0 false); tracer 0 5 "tracer_2d" "tracer"; New2d (VFun 1 false)], (fun _ => "").
  split; [|reflexivity]. eexists. split; [reflexivity|]. cbn. discriminate.
Qed.
(** nothing keeps user-defined fields from sharing a file name with each other or with a
    built-in field *)
Theorem C58_files_distinct_refuted : exists ops names k k',
  k <> k' /\ (exists a b f, export_meta (run (start names) ops) k = Some (a, f) /\ export_meta (run (start names) ops) k' = Some (b, f)).
Proof.
  exists [New2d (VFun 0 false); tracer 0 5 "dye_2d" "Velocity2d"], (fun _ => ""), "dye_2d", "uv_2d".
  split; [discriminate|]. do 3 eexists. split; reflexivity.
Qed.

(** SumFunction: the sum of the coefficients that are not None, in any number of
    additions; None if there are none. *)
Theorem C58_sum_function : forall {C} (plus : C -> C -> C) zero (cs : list (option C)),
  let given := flat_map (fun o => match o with Some c => [c] | None => [] end) cs in
  get_sum plus zero (fold_left sum_add cs []) = match given with [] => None | _ => Some (fold_left plus given zero) end.
Proof.
  intros C plus zero cs given.
  assert (G : forall (cs : list (option C)) l, fold_left sum_add cs l = (l ++ flat_map (fun o => match o with Some c => [c] | None => [] end) cs)%list).
  { clear. induction cs as [|[c|] cs IH]; intro l; cbn; [now rewrite app_nil_r| |].
    - rewrite IH. cbn. now rewrite <- app_assoc.
    - apply IH. }
  rewrite G. cbn [app]. unfold get_sum. fold given. destruct given; reflexivity.
Qed.

(** Examples: the hypotheses are met by an ordinary set-up of two solvers. *)
Example registry_example :
  let p := run (start (fun _ => "f")) [New2d (VFun 0 false); tracer 0 5 "dye_2d" "dye"; New2d (VFun 1 false); tracer 1 6 "salt_2d" "salt"] in
  export_meta p "dye_2d" = Some ("Tracer", "dye") /\ export_meta p "salt_2d" = Some ("Tracer", "salt")
  /\ p_name p 5 = "dye_2d" /\ p_name p 0 = "bathymetry_2d" /\ p_name p 7 = "f".
Proof. repeat split. Qed.
Example stores_example : stores (run (start (fun _ => "f")) [New2d (VFun 0 false)]) (tracer 0 5 "dye_2d" "dye") 5 "dye_2d".
Proof. split; [reflexivity|split; reflexivity]. Qed.
Example no_spaces_example :
  snd (step (run (start (fun _ => "f")) [New2d (VFun 0 false)]) (tracer 0 5 "my dye" "dye")) = Some RAssertion.
Proof. reflexivity. Qed.

Print Assumptions C58_metadata_stable.
Print Assumptions C58_add_field.
Print Assumptions C58_add_field_accepted.
Print Assumptions C58_label_once.
Print Assumptions C58_fields_have_metadata.
Print Assumptions C58_builtin_fields.
Print Assumptions C58_builtin_files_distinct.
Print Assumptions C58_function_names.
Print Assumptions C58_independent_refuted.
Print Assumptions C58_tracer_2d_refuted.
Print Assumptions C58_files_distinct_refuted.
Print Assumptions C58_sum_function.
