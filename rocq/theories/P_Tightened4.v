(** Clauses of C44, C47 and C48 added after wrong programs survived. *)
From Coq Require Import Reals List String Bool Arith ZArith Lra Lia.
From Verif Require Import Optim_Model P_Optim Extrude_Model P_Extrude Column_Model P_Column.
Import ListNotations.

(** ** C44: a known field is written to its usual file, another function to a file of its
    name, always behind the prefix. *)
Theorem C44_file_names : forall metadata prefix name,
  (forall f, metadata name = Some f -> filename_of metadata prefix name = (prefix ++ f)%string)
  /\ (metadata name = None -> filename_of metadata prefix name = (prefix ++ name)%string).
Proof. intros. unfold filename_of. split; [intros f E|intro E]; rewrite E; reflexivity. Qed.

(** The controls of an event, whatever the stage. *)
Definition controls_of (e : event) : list fn :=
  let c := match e with EvalPre c | DerivPre c | HessPre c | EvalPost _ c | DerivPost _ _ c | HessPost _ _ c => c end in
  match c with AMany l => l | AOne f => [f] | ANum _ => [] end.
Fixpoint controls_run (metadata : string -> option string) (prefix : string) (es : list event) (d : deferred) : option deferred :=
  match es with
  | [] => Some d
  | e :: r => match controls_export metadata prefix (args_of e) d with
              | Some d' => controls_run metadata prefix r d' | None => None end
  end.
(** Registered for any mixture of stages, the controls exporter writes the controls of the
    i-th event as number i. *)
Theorem C44_controls_exported : forall metadata prefix first rest,
  NoDup (map fname (controls_of first)) ->
  Forall (fun e => map fspace (controls_of e) = map fspace (controls_of first)) rest ->
  exists d, controls_run metadata prefix (first :: rest) deferred_new = Some d
  /\ d_next d = List.length (first :: rest)
  /\ d_written d = flat_map (fun p : nat * event =>
       map (fun q : string * Z => (filename_of metadata prefix (fst q), fst p, snd q))
           (combine (map fname (controls_of first)) (map fval (controls_of (snd p)))))
       (combine (seq 0 (List.length (first :: rest))) (first :: rest)).
Proof.
  intros metadata prefix first rest HN HF.
  assert (R : forall es d, controls_run metadata prefix es d = exports metadata prefix (map controls_of es) d).
  { induction es as [|e es IH]; intro d; [reflexivity|]. cbn [controls_run exports map].
    assert (A : controls_export metadata prefix (args_of e) d = deferred_export metadata prefix (controls_of e) None d)
      by (destruct e as [c|j c|c|j dv c|c|j h c]; destruct c; reflexivity).
    rewrite A. destruct (deferred_export metadata prefix (controls_of e) None d) as [d'|]; [apply IH|reflexivity]. }
  destruct (C44_deferred_exports metadata prefix (controls_of first) (map controls_of rest) HN) as (d & D1 & D2 & D3).
  { apply Forall_map. exact HF. }
  exists d. split; [rewrite R; exact D1|]. split; [rewrite D2; cbn; rewrite map_length; reflexivity|].
  rewrite D3. cbn [List.length]. rewrite map_length.
  change (controls_of first :: map controls_of rest) with (map controls_of (first :: rest)).
  generalize (first :: rest) as l. generalize (seq 0 (S (List.length rest))) as ns. clear.
  induction ns as [|n ns IH]; intro l; [reflexivity|]. destruct l as [|e l]; [reflexivity|].
  cbn [map combine flat_map fst snd]. f_equal. apply IH.
Qed.
Example C44_controls_exported_example :
  let f v := mkFn "bathymetry_2d" 0 v in
  exists d, controls_run (fun n => if String.eqb n "bathymetry_2d" then Some "Bathymetry2d"%string else None) "control_"
      [EvalPre (AOne (f 1%Z)); EvalPost 5 (AOne (f 2%Z)); DerivPost 5 (AOne (f 9%Z)) (AMany [f 3%Z])] deferred_new = Some d
  /\ d_written d = [("control_Bathymetry2d"%string, 0%nat, 1%Z); ("control_Bathymetry2d"%string, 1%nat, 2%Z); ("control_Bathymetry2d"%string, 2%nat, 3%Z)].
Proof. eexists. split; reflexivity. Qed.

(** The derivative callback records every derivative after a derivative computation and
    raises at any other stage than derivative and Hessian computations. *)
Theorem C44_derivative_record : forall n e,
  match e with
  | DerivPost _ (AMany ds) _ | HessPost _ (AMany ds) _ =>
      (List.length ds = n -> derivative_values n (args_of e) = Some (map fval ds))
      /\ (List.length ds <> n -> derivative_values n (args_of e) = None)
  | _ => derivative_values n (args_of e) = None
  end.
Proof.
  assert (A : forall (n : nat) (ds : list fn),
    (List.length ds = n -> (if Nat.eqb n (List.length ds) then Some (map fval ds) else None) = Some (map fval ds))
    /\ (List.length ds <> n -> (if Nat.eqb n (List.length ds) then Some (map fval ds) else None) = None)).
  { intros n ds. split; intro H; [rewrite <- H, Nat.eqb_refl; reflexivity|].
    destruct (Nat.eqb_spec n (List.length ds)); [congruence|reflexivity]. }
  intros n [c|j c|c|j dv c|c|j dv c]; try reflexivity.
  - destruct c; reflexivity.
  - destruct dv as [x|f|ds]; [reflexivity|reflexivity|apply A].
  - destruct dv as [x|f|ds]; [reflexivity|reflexivity|apply A].
Qed.

Open Scope R_scope.
(** ** C47: after the initialisation and after any mesh updates the stored heights are those of the
    layers between the current interfaces, in order. *)
Theorem C47_heights_of_layers : forall bath etas z k,
  let c := ale_run bath etas (ale_initialize z) in
  List.length (col_h c) = (List.length (col_z c) - 1)%nat
  /\ ((S k < List.length (col_z c))%nat ->
      nth k (col_h c) 0 = Rabs (nth k (col_z c) 0 - nth (S k) (col_z c) 0)).
Proof.
  intros bath etas z k c.
  assert (G : forall l, List.length (elem_heights l) = (List.length l - 1)%nat
    /\ forall k, (S k < List.length l)%nat -> nth k (elem_heights l) 0 = Rabs (nth k l 0 - nth (S k) l 0)).
  { clear. induction l as [|a [|b r] IH]; [split; [reflexivity|cbn; intros; lia]| split; [reflexivity|cbn; intros; lia]|].
    destruct IH as (L & N). change (elem_heights (a :: b :: r)) with (elem_height a b :: elem_heights (b :: r)).
    split; [cbn [List.length] in *; rewrite L; lia|].
    intros [|k] H; [reflexivity|]. cbn [nth]. rewrite N by (cbn [List.length] in *; lia). reflexivity. }
  assert (I : col_h c = elem_heights (col_z c)).
  { unfold c, ale_run. assert (J : forall es c0, col_h c0 = elem_heights (col_z c0) ->
      let c1 := fold_left (fun c e => ale_update bath e c) es c0 in col_h c1 = elem_heights (col_z c1)).
    { induction es as [|e es IH]; intros c0 H; [exact H|]. cbn [fold_left]. apply IH. reflexivity. }
    apply J. reflexivity. }
  rewrite I. split; [apply G|apply G].
Qed.
Example C47_heights_example : col_h (ale_run 10 [] (ale_initialize [0; -2; -10])) = [Rabs (0 - -2); Rabs (-2 - -10)].
Proof. reflexivity. Qed.

(** ** C48: integrating downwards, a prescribed surface value enters with a minus sign too. *)
Theorem C48_boundary_value_sign_down : forall n bnd s y,
  (forall k, (k < n)%nat -> lhs_down n y k = rhs_down n bnd s k) ->
  forall k, (k < n)%nat -> y k = - bnd - (layer_sum s n - layer_sum s k).
Proof.
  intros n bnd s y H.
  assert (A : forall m k, (n - k = S m)%nat -> y k = - bnd - (layer_sum s n - layer_sum s k)).
  { induction m as [|m IH]; intros k Hk.
    - specialize (H k ltac:(lia)). unfold lhs_down, rhs_down in H.
      assert (E : Nat.eqb (S k) n = true) by (apply Nat.eqb_eq; lia).
      rewrite E in H. replace n with (S k) by lia. cbn [layer_sum]. lra.
    - specialize (H k ltac:(lia)). unfold lhs_down, rhs_down in H.
      assert (E : Nat.eqb (S k) n = false) by (apply Nat.eqb_neq; lia).
      rewrite E in H. rewrite (IH (S k)) in H by lia. cbn [layer_sum] in H. lra. }
  intros k Hk. apply (A (n - k - 1)%nat). lia.
Qed.
Example C48_down_example : forall k, (k < 2)%nat ->
  lhs_down 2 (fun k => match k with O => -8 | _ => -6 end) k = rhs_down 2 5 (fun k => match k with O => 2 | _ => 1 end) k.
Proof. intros [|[|k]] H; [| |lia]; unfold lhs_down, rhs_down; cbn [Nat.eqb]; lra. Qed.

Print Assumptions C44_file_names.
Print Assumptions C44_controls_exported.
Print Assumptions C44_derivative_record.
Print Assumptions C47_heights_of_layers.
Print Assumptions C48_boundary_value_sign_down.
