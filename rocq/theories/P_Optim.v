(** C44: callbacks of an optimisation. *)
From Coq Require Import List String Bool Arith ZArith Lia.
From Verif Require Import Optim_Model.
Import ListNotations.
Open Scope list_scope.

(** the user's callbacks of a (nested) list from left to right *)
Fixpoint leaves (c : cb) : list nat :=
  match c with Leaf n => [n] | CbList l => (fix go (l : list cb) := match l with [] => [] | c' :: r => leaves c' ++ go r end) l end.
Fixpoint leaves_of (l : list cb) : list nat := match l with [] => [] | c :: r => leaves c ++ leaves_of r end.
Lemma leaves_list : forall l, leaves (CbList l) = leaves_of l.
Proof. induction l as [|c l IH]; [reflexivity|]. cbn [leaves_of]. rewrite <- IH. reflexivity. Qed.
(** prefix of a list up to and including the first element with a property *)
Fixpoint upto (P : nat -> bool) (l : list nat) : list nat :=
  match l with [] => [] | n :: r => n :: (if P n then [] else upto P r) end.

Section CbInd.
  Variable P : cb -> Prop.
  Hypothesis HL : forall n, P (Leaf n).
  Hypothesis HC : forall l, Forall P l -> P (CbList l).
  Fixpoint cb_ind' (c : cb) : P c :=
    match c with
    | Leaf n => HL n
    | CbList l => HC l ((fix go (l : list cb) : Forall P l :=
        match l with [] => Forall_nil P | c' :: r => Forall_cons c' (cb_ind' c') (go r) end) l)
    end.
End CbInd.
Lemma upto_app : forall P l l', upto P (l ++ l') = upto P l ++ (if existsb P l then [] else upto P l').
Proof.
  induction l as [|n l IH]; intro l'; [reflexivity|]. cbn. destruct (P n); cbn; [reflexivity|]. rewrite IH. reflexivity.
Qed.
(** a call reaches the callbacks in order, all with the same arguments, up to the first one
    that raises *)
Theorem C44_called_in_order : forall raises c args tr,
  call raises c args tr = (tr ++ map (fun n => (n, args)) (upto (fun n => raises n args) (leaves c)),
                           existsb (fun n => raises n args) (leaves c)).
Proof.
  intros raises c args. set (P := fun n => raises n args). induction c as [n|l IH] using cb_ind'; intro tr.
  - cbn. fold (P n). rewrite orb_false_r. destruct (P n); reflexivity.
  - rewrite leaves_list. revert tr. induction IH as [|c l Hc HF IHl]; intro tr.
    + cbn. rewrite app_nil_r. reflexivity.
    + cbn [leaves_of]. rewrite upto_app, existsb_app, map_app.
      change (call raises (CbList (c :: l)) args tr) with
        (let '(tr', e) := call raises c args tr in if e then (tr', true) else call raises (CbList l) args tr').
      rewrite (Hc tr). cbv zeta. destruct (existsb P (leaves c)) eqn:E.
      * cbn [orb map]. rewrite app_nil_r. reflexivity.
      * rewrite IHl. cbn [orb]. rewrite app_assoc. reflexivity.
Qed.
(** over a whole optimisation with callbacks that do not raise, every callback is called
    once per event, in registration order, with the arguments of the event *)
Theorem C44_whole_history : forall l events,
  fold_left (fun tr e => fst (call (fun _ _ => false) (CbList l) (args_of e) tr)) events []
  = flat_map (fun e => map (fun n => (n, args_of e)) (leaves_of l)) events.
Proof.
  intros l events.
  assert (U : forall m, upto (fun _ => false) m = m) by (induction m as [|a m IH]; [reflexivity|cbn; rewrite IH; reflexivity]).
  assert (G : forall ev tr, fold_left (fun tr e => fst (call (fun _ _ => false) (CbList l) (args_of e) tr)) ev tr
     = tr ++ flat_map (fun e => map (fun n => (n, args_of e)) (leaves_of l)) ev).
  { induction ev as [|e ev IH]; intro tr; cbn [fold_left flat_map]; [rewrite app_nil_r; reflexivity|].
    rewrite C44_called_in_order. cbn [fst]. rewrite IH, leaves_list, U, app_assoc. reflexivity. }
  apply (G events []).
Qed.
(** what is handed back to the optimiser: the controls before a derivative computation, the
    derivative (Hessian) after it, unchanged *)
Theorem C44_return_value : forall e, call_returns (args_of e) = Some
  (match e with
   | EvalPre c | DerivPre c | HessPre c => c
   | EvalPost _ c => c
   | DerivPost _ d _ => d
   | HessPost _ h _ => h
   end).
Proof. intros []; reflexivity. Qed.

(** ** Deferred exports *)
Section Deferred.
  Variable metadata : string -> option string.
  Variable prefix : string.
  Notation exp := (deferred_export metadata prefix).
  Fixpoint exports (calls : list (list fn)) (d : deferred) : option deferred :=
    match calls with
    | [] => Some d
    | fs :: r => match exp fs None d with Some d' => exports r d' | None => None end
    end.
  Lemma field_dict_none : forall fs k, ~ In k (map fname fs) -> field_dict fs k = None.
  Proof.
    induction fs as [|f fs IH]; intros k H; [reflexivity|]. cbn. rewrite IH by (intro F; apply H; right; exact F).
    destruct (String.eqb_spec (fname f) k); [|reflexivity]. exfalso. apply H. left. exact e.
  Qed.
  Lemma keys_nodup : forall fs seen, NoDup (map fname fs) -> (forall k, In k (map fname fs) -> ~ In k seen) ->
    keys fs seen = map fname fs.
  Proof.
    induction fs as [|f fs IH]; intros seen HN HS; [reflexivity|]. inversion HN; subst. cbn.
    assert (E : existsb (String.eqb (fname f)) seen = false).
    { apply not_true_iff_false. intro F. apply existsb_exists in F. destruct F as (k & Hk & F).
      apply String.eqb_eq in F. subst k. apply (HS (fname f)); [left; reflexivity|exact Hk]. }
    rewrite E. f_equal. apply IH; [assumption|]. intros k Hk [F|F]; [subst; contradiction|].
    apply (HS k); [right; exact Hk|exact F].
  Qed.
  Lemma export_once_nodup : forall fs i, NoDup (map fname fs) ->
    export_once metadata prefix fs i = map (fun f => (filename_of metadata prefix (fname f), i, fval f)) fs.
  Proof.
    intros fs i HN. unfold export_once. rewrite keys_nodup by (try exact HN; intros k _ []).
    assert (G : forall l pre, NoDup (map fname (pre ++ l)) ->
      flat_map (fun k => match field_dict (pre ++ l) k with Some f => [(filename_of metadata prefix k, i, fval f)] | None => [] end) (map fname l)
      = map (fun f => (filename_of metadata prefix (fname f), i, fval f)) l).
    { induction l as [|f l IH]; intros pre HN'; [reflexivity|]. cbn [map flat_map].
      assert (E : field_dict (pre ++ f :: l) (fname f) = Some f).
      { clear IH. induction pre as [|p pre IH].
        - cbn. inversion HN'; subst. rewrite field_dict_none by assumption. rewrite String.eqb_refl. reflexivity.
        - cbn in *. inversion HN'; subst. rewrite (IH H2). reflexivity. }
      rewrite E. cbn [app]. f_equal.
      replace (pre ++ f :: l) with ((pre ++ [f]) ++ l) by (rewrite <- app_assoc; reflexivity).
      apply IH. rewrite <- app_assoc. exact HN'. }
    apply (G fs [] HN).
  Qed.
  Lemma assign_ok : forall fixed given, map fspace fixed = map fspace given ->
    exists l, assign fixed given = Some l /\ map fname l = map fname fixed /\ map fspace l = map fspace fixed /\ map fval l = map fval given.
  Proof.
    induction fixed as [|f fixed IH]; intros [|g given] H; cbn in H; try discriminate.
    - exists []. repeat split.
    - injection H as H1 H2. destruct (IH given H2) as (l & E & A & B & C).
      cbn. rewrite H1, Nat.eqb_refl, E. cbn. eexists. split; [reflexivity|]. cbn. rewrite A, B, C. repeat split.
  Qed.
  Lemma map_names_vals : forall l (i : nat) names vals, map fname l = names -> map fval l = vals ->
    map (fun f => (filename_of metadata prefix (fname f), i, fval f)) l
    = map (fun p : string * Z => (filename_of metadata prefix (fst p), i, snd p)) (combine names vals).
  Proof. induction l as [|f l IH]; intros i names vals <- <-; [reflexivity|]. cbn. f_equal. apply IH; reflexivity. Qed.

  (** The export manager is created at the first export and keeps its names: the i-th
      export writes the values given in the i-th call under the names of the first call,
      with running number i. *)
Theorem C44_deferred_exports : forall first rest,
    NoDup (map fname first) -> Forall (fun fs => map fspace fs = map fspace first) rest ->
    exists d, exports (first :: rest) deferred_new = Some d
    /\ d_next d = List.length (first :: rest)
    /\ d_written d = flat_map (fun p : nat * list fn =>
         map (fun q : string * Z => (filename_of metadata prefix (fst q), fst p, snd q))
             (combine (map fname first) (map fval (snd p))))
         (combine (seq 0 (List.length (first :: rest))) (first :: rest)).
  Proof.
    intros first rest HN HF.
    assert (G : forall cs fixed n w, map fname fixed = map fname first -> map fspace fixed = map fspace first ->
      Forall (fun fs => map fspace fs = map fspace first) cs ->
      exists d, exports cs (mkDef (Some fixed) n w) = Some d /\ d_next d = (n + List.length cs)%nat
      /\ d_written d = w ++ flat_map (fun p : nat * list fn =>
         map (fun q : string * Z => (filename_of metadata prefix (fst q), fst p, snd q))
             (combine (map fname first) (map fval (snd p)))) (combine (seq n (List.length cs)) cs)).
    { induction cs as [|c cs IH]; intros fixed n w H1 H2 HC.
      - exists (mkDef (Some fixed) n w). cbn. rewrite app_nil_r, Nat.add_0_r. repeat split.
      - inversion HC; subst. destruct (assign_ok fixed c) as (l & E & A & B & C); [congruence|].
        cbn [exports]. unfold deferred_export. cbn [d_functions d_next d_written]. rewrite E.
        destruct (IH l (S n) (w ++ export_once metadata prefix l n)) as (d & D1 & D2 & D3); try assumption; try congruence.
        exists d. split; [exact D1|]. split; [rewrite D2; cbn; lia|].
        rewrite D3, <- app_assoc. cbn [List.length seq combine flat_map fst snd]. do 2 f_equal.
        rewrite export_once_nodup by (rewrite A, H1; exact HN). apply map_names_vals; congruence. }
    cbn [exports]. unfold deferred_export at 1. cbn [deferred_new d_functions d_next d_written].
    set (fixed := map (fun f => mkFn (fname f) (fspace f) 0) first).
    assert (F1 : map fname fixed = map fname first) by (unfold fixed; rewrite map_map; reflexivity).
    assert (F2 : map fspace fixed = map fspace first) by (unfold fixed; rewrite map_map; reflexivity).
    destruct (assign_ok fixed first) as (l & E & A & B & C); [congruence|]. rewrite E.
    destruct (G rest l 1%nat ([] ++ export_once metadata prefix l 0)) as (d & D1 & D2 & D3); try assumption; try congruence.
    exists d. split; [exact D1|]. split; [rewrite D2; reflexivity|].
    rewrite D3. cbn [app List.length seq combine flat_map fst snd]. f_equal.
    rewrite export_once_nodup by (rewrite A, F1; exact HN). apply map_names_vals; congruence.
  Qed.
  (** a changed function space is refused *)
Theorem C44_deferred_space_checked : forall first fs d, exp first None deferred_new = Some d ->
    first <> [] -> fs <> [] ->
    fspace (hd (mkFn "" 0 0) fs) <> fspace (hd (mkFn "" 0 0) first) -> exp fs None d = None.
  Proof.
    intros first fs d E H1 H2 HS. unfold deferred_export in E. cbn [deferred_new d_functions d_next d_written] in E.
    destruct first as [|f first]; [congruence|]. destruct fs as [|g fs]; [congruence|]. cbn [hd] in HS.
    cbn in E. rewrite Nat.eqb_refl in E. destruct (assign _ first) as [l|]; [|discriminate]. cbn in E. injection E as <-.
    unfold deferred_export. cbn [d_functions]. cbn [assign fspace].
    destruct (Nat.eqb_spec (fspace f) (fspace g)); [congruence|reflexivity].
  Qed.
  (** two functions of the same name: only the last is written *)
Theorem C44_same_name_refuted : forall n s v w,
    export_once metadata prefix [mkFn n s v; mkFn n s w] 0 = [(filename_of metadata prefix n, 0%nat, w)].
  Proof. intros. unfold export_once. cbn. rewrite ?String.eqb_refl. cbn. rewrite ?String.eqb_refl. reflexivity. Qed.
  (** a shorter list of functions in a later call leaves stale values in the files *)
Theorem C44_stale_value_refuted : forall a b c s, exists d,
    exports [[mkFn "a" s a; mkFn "b" s b]; [mkFn "a" s c]] deferred_new = Some d
    /\ In (filename_of metadata prefix "b", 1%nat, b) (d_written d).
  Proof.
    intros. unfold exports, deferred_export. repeat (progress (cbn; rewrite ?Nat.eqb_refl)).
    eexists. split; [reflexivity|]. cbn. right. right. right. left. reflexivity.
  Qed.
  (** derivatives are exported under the names of the controls *)
Theorem C44_derivative_names : forall j ds cs d,
    NoDup (map fname cs) -> List.length ds = List.length cs ->
    derivatives_export metadata prefix [ANum j; AMany ds; AMany cs] deferred_new = Some d ->
    d_written d = map (fun q : string * Z => (filename_of metadata prefix (fst q), 0%nat, snd q))
                      (combine (map fname cs) (map fval ds)).
  Proof.
    intros j ds cs d HN HL E. cbn [derivatives_export as_list] in E. unfold deferred_export in E.
    cbn [deferred_new d_functions d_next d_written app] in E.
    assert (Z : exists z, zip_names ds (map fname cs) = z /\ map fname z = map fname cs /\ map fspace z = map fspace ds).
    { eexists. split; [reflexivity|]. clear E HN. revert cs HL.
      induction ds as [|f ds IH]; intros [|c cs] HL; cbn in *; try discriminate; [split; reflexivity|].
      destruct (IH cs ltac:(lia)) as (A & B). rewrite A, B. split; reflexivity. }
    destruct Z as (z & EZ & Z1 & Z2). rewrite EZ in E.
    destruct (assign_ok z ds Z2) as (l & EL & A & B & C). rewrite EL in E. injection E as <-. cbn [d_written].
    rewrite export_once_nodup by (rewrite A, Z1; exact HN). apply map_names_vals; congruence.
  Qed.
  (** the derivative exporter is only usable after a derivative (or Hessian) computation *)
Theorem C44_derivative_stage_checked : forall e d,
    match e with DerivPost _ _ _ | HessPost _ _ _ => False | _ => True end ->
    derivatives_export metadata prefix (args_of e) d = None.
  Proof. intros e d H; destruct e; try contradiction; reflexivity. Qed.
End Deferred.

(** ** Diagnostics *)
(** the functional callback records the functional value at every post stage *)
Theorem C44_functional_record : forall events,
  Forall (fun e => match e with EvalPost _ _ | DerivPost _ _ _ | HessPost _ _ _ => True | _ => False end) events ->
  map (fun e => functional_values (args_of e)) events
  = map (fun e => match e with EvalPost j _ | DerivPost j _ _ | HessPost j _ _ => Some [ANum j] | _ => None end) events.
Proof.
  intros events H. apply map_ext_in. intros e He. rewrite Forall_forall in H. specialize (H e He).
  destruct e; try contradiction; reflexivity.
Qed.
(** used at a pre stage it does not raise (as its message announces) but records the
    controls *)
Theorem C44_functional_pre_stage_refuted : forall c, functional_values (args_of (EvalPre c)) = Some [c].
Proof. reflexivity. Qed.
(** controls and derivatives are recorded in full, or the callback raises *)
Theorem C44_control_record : forall n e,
  let controls := match e with EvalPre c | DerivPre c | HessPre c | EvalPost _ c | DerivPost _ _ c | HessPost _ _ c => c end in
  (forall fs, controls = AMany fs -> List.length fs = n -> control_values n (args_of e) = Some (map fval fs))
  /\ (forall v, control_values n (args_of e) = Some v -> List.length v = n).
Proof.
  intros n e controls.
  assert (L : last (args_of e) (ANum 0) = controls) by (destruct e; reflexivity).
  unfold control_values. rewrite L. split.
  - intros fs -> <-. rewrite Nat.eqb_refl. reflexivity.
  - intros v E. destruct controls as [x|f|fs]; try discriminate.
    destruct (Nat.eqb_spec n (List.length fs)); [|discriminate]. injection E as <-. rewrite map_length. symmetry. assumption.
Qed.

Example C44_nested_example : forall a,
  fst (call (fun n _ => Nat.eqb n 3) (CbList [Leaf 1; CbList [Leaf 2; Leaf 3]; Leaf 4]) a []) = [(1, a); (2, a); (3, a)].
Proof. intro a. reflexivity. Qed.
Example C44_deferred_example : exists d,
  exports (fun _ => None) "control_" [[mkFn "a" 0 5%Z]; [mkFn "x" 0 7%Z]] deferred_new = Some d
  /\ d_written d = [("control_a"%string, 0, 5%Z); ("control_a"%string, 1, 7%Z)].
Proof. eexists. split; reflexivity. Qed.

Print Assumptions C44_called_in_order.
Print Assumptions C44_whole_history.
Print Assumptions C44_deferred_exports.
Print Assumptions C44_derivative_names.
