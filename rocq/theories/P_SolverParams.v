(** C66: the solver parameters a user gives reach the solvers. *)

From Coq Require Import List String Ascii Bool Arith NArith Lia.
From Verif Require Import Exporter_Model Exporter_Proofs Callback_Proofs SolverParams_Model.
Import ListNotations.
Open Scope string_scope.

(** * Specification *)

(** The integrators and what has to be known to create one. *)
Inductive integrator :=
| FE | CN | SS | PPP (eta_cg : bool) | LF | SSP
| DIRK (cls : string) (n : nat) | UForm (cls : string) (n : nat)
| ERK (cls : string) (n : nat) (nontrivial : bool)
| ShuOsher (cls : string) (nontrivial : bool)
| IMEX (dcls ecls : string) (n : nat) (nontrivial : bool).

Definition construct (J : integrator) : heap -> opts -> string -> result :=
  match J with
  | FE => forward_euler | CN => crank_nicolson | SS => steady_state
  | PPP c => fun h o eq => pressure_projection h o eq c
  | LF => leap_frog | SSP => ssprk22_ale
  | DIRK c n => dirk c n | UForm c n => dirk_uform c n
  | ERK c n t => erk c n t | ShuOsher c t => erk_shu_osher c t
  | IMEX d e n t => imex d e n t
  end.

(** [d'] holds what [d] holds, apart from the keys [ks]. *)
Definition same_except (ks : list string) (d d' : dict) : Prop :=
  forall k, ~ In k ks -> dict_get d' k = dict_get d k.

(** Every entry of [d] is in [d'] too. *)
Definition kept (ks : list string) (d d' : dict) : Prop :=
  forall k v, ~ In k ks -> dict_get d k = Some v -> dict_get d' k = Some v.

(** Does the integrator solve the linearised form? *)
Definition linearised (J : integrator) (o : opts) : bool :=
  match J with
  | SS => false
  | _ => match o_semi o with Some s => s | None => false end
  end.

(* ------------------------------------------------------------------ *)

Lemma get_setdefault d k v k' :
  dict_get (setdefault d k v) k' =
  match dict_get d k with
  | Some _ => dict_get d k'
  | None => if String.eqb k' k then Some v else dict_get d k'
  end.
Proof.
  unfold setdefault. destruct (dict_get d k); [reflexivity|]. apply dict_get_set.
Qed.

Lemma get_monolithic d k :
  dict_get (monolithic d) k =
  if (is_str (dict_get d "pc_type") "lu" && String.eqb k "mat_type")%bool
  then Some (PStr "aij") else dict_get d k.
Proof.
  unfold monolithic. destruct (is_str _ _); cbn [andb]; [|reflexivity].
  apply dict_get_set.
Qed.

Lemma setdefault_same d v : same_except ["snes_type"; "mat_type"] d (setdefault d "snes_type" v).
Proof.
  intros k N. rewrite get_setdefault. destruct (dict_get d "snes_type"); [reflexivity|].
  destruct (String.eqb_spec k "snes_type") as [E|E]; [|reflexivity].
  exfalso. apply N. left. now symmetry.
Qed.

Lemma monolithic_same d d' :
  same_except ["snes_type"; "mat_type"] d d' ->
  same_except ["snes_type"; "mat_type"] d (monolithic d').
Proof.
  intros S k N. rewrite get_monolithic.
  destruct (String.eqb_spec k "mat_type") as [E|E].
  - exfalso. apply N. right. left. now symmetry.
  - rewrite andb_false_r. now apply S.
Qed.

Lemma same_refl ks d : same_except ks d d.
Proof. intros k N. reflexivity. Qed.

Lemma setdefault_kept d k v ks : kept ks d (setdefault d k v).
Proof.
  intros k' v' N G. rewrite get_setdefault. destruct (dict_get d k) eqn:E; [exact G|].
  destruct (String.eqb_spec k' k) as [->|]; [congruence|exact G].
Qed.

Lemma monolithic_kept d d' : kept ["mat_type"] d d' -> kept ["mat_type"] d (monolithic d').
Proof.
  intros S k v N G. rewrite get_monolithic.
  destruct (String.eqb_spec k "mat_type") as [E|E].
  - exfalso. apply N. left. now symmetry.
  - rewrite andb_false_r. now apply S.
Qed.

Lemma hset_same h r d : hset h r d r = d.
Proof. unfold hset. now rewrite Nat.eqb_refl. Qed.

Lemma hset_other h r d x : x <> r -> hset h r d x = h x.
Proof. intros N. unfold hset. destruct (Nat.eqb_spec x r); [contradiction|reflexivity]. Qed.

Lemma inl_pair {A B C} (a a' : A) (b b' : B) :
  @inl (A * B) C (a, b) = inl (a', b') -> a = a' /\ b = b'.
Proof. intros E. injection E. auto. Qed.

(* ------------------------------------------------------------------ *)
(** * The given parameters are used *)

(** Apart from the leapfrog scheme, the pressure projection scheme and the
    tendency solves of the u-form schemes (see below), every solver an
    integrator creates is given all the entries of the option object's
    solver_parameters, and nothing else but 'snes_type' and 'mat_type'. *)
Theorem C66_parameters_reach_solvers J h o eq h' svs :
  construct J h o eq = inl (h', svs) ->
  match J with LF | PPP _ | UForm _ _ => False | _ => True end ->
  forall s, In s svs ->
  exists d, sv_params s = Some d /\
            same_except ["snes_type"; "mat_type"] (h (o_params o)) d.
Proof.
  intros C NI s Hs.
  destruct J as [| | |c| | |c n|c n|c n t|c t|dc ec n t]; try contradiction; cbn [construct] in C.
  - unfold forward_euler in C. apply inl_pair in C as [_ <-].
    destruct Hs as [<-|[]]. eexists. split; [reflexivity|apply same_refl].
  - unfold crank_nicolson in C. destruct (o_semi o); [|discriminate].
    apply inl_pair in C as [_ <-]. destruct Hs as [<-|[]].
    eexists. split; [reflexivity|]. apply monolithic_same, setdefault_same.
  - unfold steady_state in C.
    apply inl_pair in C as [_ <-]. destruct Hs as [<-|[]].
    eexists. split; [reflexivity|]. apply monolithic_same, setdefault_same.
  - unfold ssprk22_ale in C. apply inl_pair in C as [_ <-]. destruct Hs as [<-|[]].
    eexists. split; [reflexivity|]. apply same_refl.
  - unfold dirk in C. apply inl_pair in C as [_ <-].
    apply in_map_iff in Hs as (i & <- & _).
    eexists. split; [reflexivity|]. apply setdefault_same.
  - unfold erk in C. apply inl_pair in C as [_ <-]. destruct t; [|destruct Hs].
    apply in_map_iff in Hs as (i & <- & _).
    eexists. split; [reflexivity|]. apply same_refl.
  - unfold erk_shu_osher in C. apply inl_pair in C as [_ <-]. destruct t; [|destruct Hs].
    destruct Hs as [<-|[]]. eexists. split; [reflexivity|]. apply same_refl.
  - unfold imex, dirk, erk in C. apply inl_pair in C as [_ <-].
    apply in_app_iff in Hs as [Hs|Hs].
    + apply in_map_iff in Hs as (i & <- & _).
      eexists. split; [reflexivity|]. apply setdefault_same.
    + destruct t; [|destruct Hs]. apply in_map_iff in Hs as (i & <- & _).
      cbn [sv_params]. rewrite hset_same.
      eexists. split; [reflexivity|]. apply setdefault_same.
Qed.

(** The u-form schemes: the stage solves use the given parameters, the
    tendency solves fixed ones. *)
Theorem C66_uform_parameters cls n h o eq h' svs :
  construct (UForm cls n) h o eq = inl (h', svs) ->
  exists d, same_except ["snes_type"; "mat_type"] (h (o_params o)) d /\
    map sv_params svs = (repeat (Some d) n ++ repeat (Some k_params) (n - 1))%list.
Proof.
  cbn [construct]. unfold dirk_uform. intros C. destruct (o_semi o) as [semi|]; [|discriminate].
  apply inl_pair in C as [_ <-].
  exists (monolithic (setdefault (h (o_params o)) "snes_type" (snes semi))).
  split; [apply monolithic_same, setdefault_same|].
  rewrite map_app, !map_map. cbn [sv_params].
  assert (Z : forall (x : option dict) k a, map (fun _ : nat => x) (seq a k) = repeat x k).
  { intros x k. induction k as [|k IH]; intros a; [reflexivity|]. cbn. f_equal. apply IH. }
  now rewrite !Z.
Qed.

(** The nonlinear solver: what the user chose, otherwise one linear solve for
    the linearised form and Newton iterations for the full one. *)
Theorem C66_snes_type J h o eq h' svs :
  construct J h o eq = inl (h', svs) ->
  match J with CN | SS | DIRK _ _ | IMEX _ _ _ _ => True | _ => False end ->
  forall s d, In s svs -> sv_params s = Some d ->
  dict_get d "snes_type" =
  match dict_get (h (o_params o)) "snes_type" with
  | Some v => Some v
  | None => Some (PStr (if linearised J o then "ksponly" else "newtonls"))
  end.
Proof.
  assert (A : forall d b, dict_get (setdefault d "snes_type" (snes b)) "snes_type" =
    match dict_get d "snes_type" with
    | Some v => Some v | None => Some (PStr (if b then "ksponly" else "newtonls")) end).
  { intros d b. rewrite get_setdefault. destruct (dict_get d "snes_type"); reflexivity. }
  assert (B : forall d, dict_get (monolithic d) "snes_type" = dict_get d "snes_type").
  { intros d. rewrite get_monolithic. cbn [String.eqb Ascii.eqb Bool.eqb].
    now rewrite andb_false_r. }
  intros C NI s d Hs Hd.
  destruct J as [| | |c| | |c n|c n|c n t|c t|dc ec n t]; try contradiction; cbn [construct] in C.
  - unfold crank_nicolson in C. cbn [linearised].
    destruct (o_semi o) as [semi|]; [|discriminate].
    apply inl_pair in C as [_ <-]. destruct Hs as [<-|[]]. cbn [sv_params] in Hd.
    injection Hd as <-. rewrite B. apply A.
  - unfold steady_state in C. cbn [linearised].
    apply inl_pair in C as [_ <-]. destruct Hs as [<-|[]]. cbn [sv_params] in Hd.
    injection Hd as <-. rewrite B. apply A.
  - unfold dirk in C. cbn [linearised]. apply inl_pair in C as [_ <-].
    apply in_map_iff in Hs as (i & <- & _). cbn [sv_params] in Hd. injection Hd as <-. apply A.
  - unfold imex, dirk, erk in C. cbn [linearised]. apply inl_pair in C as [_ <-].
    apply in_app_iff in Hs as [Hs|Hs].
    + apply in_map_iff in Hs as (i & <- & _). cbn [sv_params] in Hd. injection Hd as <-. apply A.
    + destruct t; [|destruct Hs]. apply in_map_iff in Hs as (i & <- & _).
      cbn [sv_params] in Hd. rewrite hset_same in Hd. injection Hd as <-. apply A.
Qed.

(** A direct solver is given an assembled matrix. *)
Theorem C66_lu_monolithic J h o eq h' svs s d :
  construct J h o eq = inl (h', svs) ->
  match J with CN | SS => True | _ => False end ->
  In s svs -> sv_params s = Some d ->
  dict_get (h (o_params o)) "pc_type" = Some (PStr "lu") ->
  dict_get d "mat_type" = Some (PStr "aij").
Proof.
  intros C NI Hs Hd L.
  assert (A : forall b, dict_get (monolithic (setdefault (h (o_params o)) "snes_type" (snes b)))
                                 "mat_type" = Some (PStr "aij")).
  { intros b. rewrite get_monolithic, get_setdefault. cbn [String.eqb Ascii.eqb Bool.eqb].
    rewrite L. destruct (dict_get _ "snes_type"); reflexivity. }
  destruct J as [| | |c| | |c n|c n|c n t|c t|dc ec n t]; try contradiction; cbn [construct] in C.
  - unfold crank_nicolson in C. destruct (o_semi o) as [semi|]; [|discriminate].
    apply inl_pair in C as [_ <-]. destruct Hs as [<-|[]]. cbn [sv_params] in Hd.
    injection Hd as <-. apply A.
  - unfold steady_state in C.
    apply inl_pair in C as [_ <-]. destruct Hs as [<-|[]]. cbn [sv_params] in Hd.
    injection Hd as <-. apply A.
Qed.

(** The Runge-Kutta schemes in tendency form do not do that. *)
Definition base_opts : opts := mk_opts 0 1 (Some 2) (Some false) None.
Definition lu_heap : heap := fun _ => [("pc_type", PStr "lu")].

Theorem C66_lu_monolithic_dirk_refuted :
  exists h' s d, construct (DIRK "DIRK22" 1) lu_heap base_opts "ShallowWaterEquations"
               = inl (h', [s]) /\
    sv_params s = Some d /\ dict_get d "pc_type" = Some (PStr "lu") /\
    dict_get d "mat_type" = None.
Proof. eexists _, _, _. split; [reflexivity|]. now repeat split. Qed.

(* ------------------------------------------------------------------ *)
(** * What creating an integrator changes *)

Lemma dirk_heap cls n h o eq h' svs :
  dirk cls n h o eq = inl (h', svs) ->
  (forall r, r <> o_params o -> h' r = h r) /\ kept ["mat_type"] (h (o_params o)) (h' (o_params o)).
Proof.
  unfold dirk. intros C. apply inl_pair in C as [<- _]. split.
  - intros r N. now apply hset_other.
  - rewrite hset_same. apply setdefault_kept.
Qed.

(** Only the dictionary of the option object changes, and no entry the user
    made is lost or altered, except 'mat_type'. *)
Theorem C66_construct_effect J h o eq h' svs :
  construct J h o eq = inl (h', svs) ->
  (forall r, r <> o_params o -> h' r = h r) /\
  kept ["mat_type"] (h (o_params o)) (h' (o_params o)) /\
  same_except ["snes_type"; "mat_type"] (h (o_params o)) (h' (o_params o)).
Proof.
  assert (Z : forall d, (forall r, r <> o_params o -> hset h (o_params o) d r = h r) /\
     (kept ["mat_type"] (h (o_params o)) d ->
      same_except ["snes_type"; "mat_type"] (h (o_params o)) d ->
      kept ["mat_type"] (h (o_params o)) (hset h (o_params o) d (o_params o)) /\
      same_except ["snes_type"; "mat_type"] (h (o_params o)) (hset h (o_params o) d (o_params o)))).
  { intros d. split; [intros r N; now apply hset_other|]. rewrite hset_same. auto. }
  assert (Y : (forall r, r <> o_params o -> h r = h r) /\
     kept ["mat_type"] (h (o_params o)) (h (o_params o)) /\
     same_except ["snes_type"; "mat_type"] (h (o_params o)) (h (o_params o))).
  { split; [reflexivity|]. split; [intros k v _ G; exact G|apply same_refl]. }
  assert (X : forall v, kept ["mat_type"] (h (o_params o)) (setdefault (h (o_params o)) "snes_type" v) /\
     same_except ["snes_type"; "mat_type"] (h (o_params o)) (setdefault (h (o_params o)) "snes_type" v)).
  { intros v. split; [apply setdefault_kept|apply setdefault_same]. }
  assert (W : forall v, kept ["mat_type"] (h (o_params o)) (monolithic (setdefault (h (o_params o)) "snes_type" v)) /\
     same_except ["snes_type"; "mat_type"] (h (o_params o)) (monolithic (setdefault (h (o_params o)) "snes_type" v))).
  { intros v. split; [apply monolithic_kept, setdefault_kept|apply monolithic_same, setdefault_same]. }
  intros C.
  destruct J as [| | |c| | |c n|c n|c n t|c t|dc ec n t]; cbn [construct] in C.
  - unfold forward_euler in C. apply inl_pair in C as [<- _]. exact Y.
  - unfold crank_nicolson in C. destruct (o_semi o) as [semi|]; [|discriminate].
    apply inl_pair in C as [<- _]. destruct (Z (monolithic (setdefault (h (o_params o)) "snes_type" (snes semi)))) as [Z1 Z2].
    split; [exact Z1|]. apply Z2; apply W.
  - unfold steady_state in C.
    apply inl_pair in C as [<- _]. destruct (Z (monolithic (setdefault (h (o_params o)) "snes_type" (snes false)))) as [Z1 Z2].
    split; [exact Z1|]. apply Z2; apply W.
  - unfold pressure_projection in C. destruct (o_semi o) as [semi|]; [|discriminate].
    destruct (guard _ _) as [[|]|]; try discriminate.
    apply inl_pair in C as [<- _]. destruct (Z (monolithic (setdefault (h (o_params o)) "snes_type" (snes semi)))) as [Z1 Z2].
    split; [exact Z1|]. apply Z2; apply W.
  - unfold leap_frog in C. apply inl_pair in C as [<- _]. exact Y.
  - unfold ssprk22_ale in C. apply inl_pair in C as [<- _]. exact Y.
  - unfold dirk in C. apply inl_pair in C as [<- _]. split; [apply Z|].
    apply Z; apply X.
  - unfold dirk_uform in C. destruct (o_semi o) as [semi|]; [|discriminate].
    apply inl_pair in C as [<- _]. destruct (Z (monolithic (setdefault (h (o_params o)) "snes_type" (snes semi)))) as [Z1 Z2].
    split; [exact Z1|]. apply Z2; apply W.
  - unfold erk in C. apply inl_pair in C as [<- _]. exact Y.
  - unfold erk_shu_osher in C. apply inl_pair in C as [<- _]. exact Y.
  - unfold imex, dirk, erk in C. apply inl_pair in C as [<- _]. split; [apply Z|].
    apply Z; apply X.
Qed.

(** Any sequence of constructions, some of which may raise. *)
Definition build (h : heap) (c : integrator * opts * string) : heap :=
  let '(J, o, eq) := c in
  match construct J h o eq with inl (h', _) => h' | inr _ => h end.

Theorem C66_history cs : forall h r k v,
  k <> "mat_type" -> dict_get (h r) k = Some v ->
  dict_get (fold_left build cs h r) k = Some v.
Proof.
  induction cs as [|[[J o] eq] cs IH]; intros h r k v N G; [exact G|].
  cbn [fold_left]. apply IH; [exact N|].
  unfold build. destruct (construct J h o eq) as [[h' svs]|e] eqn:C; [|exact G].
  destruct (C66_construct_effect _ _ _ _ _ _ C) as (A & B & _).
  destruct (Nat.eq_dec r (o_params o)) as [->|Nr].
  - apply B; [|exact G]. intros [E|[]]. now apply N.
  - now rewrite A.
Qed.

Theorem C66_history_frame cs : forall h r,
  (forall J o eq, In (J, o, eq) cs -> o_params o <> r) ->
  fold_left build cs h r = h r.
Proof.
  induction cs as [|[[J o] eq] cs IH]; intros h r N; [reflexivity|].
  cbn [fold_left]. rewrite IH by (intros; eapply N; right; eassumption).
  unfold build. destruct (construct J h o eq) as [[h' svs]|e] eqn:C; [|reflexivity].
  destruct (C66_construct_effect _ _ _ _ _ _ C) as (A & _).
  apply A. intros E. apply (N J o eq); [now left|now symmetry].
Qed.

(** But the option object remembers: after an integrator has been created with
    the linearised form, one created from the same option object with the full
    form still performs a single linear solve. *)
Definition ksp_heap : heap := fun _ => [("ksp_type", PStr "gmres")].
Definition semi_opts : opts := mk_opts 0 1 (Some 2) (Some true) None.

Theorem C66_relinearised_refuted :
  exists h1 s1 h2 s d,
    construct CN ksp_heap semi_opts "ShallowWaterEquations" = inl (h1, s1) /\
    construct CN h1 base_opts "ShallowWaterEquations" = inl (h2, [s]) /\
    linearised CN base_opts = false /\
    sv_params s = Some d /\ dict_get d "snes_type" = Some (PStr "ksponly").
Proof. eexists _, _, _, _, _. split; [reflexivity|]. split; [reflexivity|]. now repeat split. Qed.

(* ------------------------------------------------------------------ *)
(** * Pressure projection *)

(** The parameters of its two solvers. *)
Theorem C66_projection_parameters c h o eq h' svs :
  construct (PPP c) h o eq = inl (h', svs) ->
  exists sm sw dm dw, svs = [sm; sw] /\
    sv_params sm = Some dm /\ sv_params sw = Some dw /\
    same_except ["snes_type"] (match o_momentum o with Some r => h r | None => [] end) dm /\
    same_except ["snes_type"; "mat_type"] (h (o_params o)) dw /\
    (dict_get (h (o_params o)) "pc_type" = Some (PStr "lu") ->
     dict_get dw "mat_type" = Some (PStr "aij")).
Proof.
  cbn [construct]. unfold pressure_projection. intros C.
  destruct (o_semi o) as [semi|]; [|discriminate].
  destruct (guard _ _) as [[|]|]; try discriminate.
  apply inl_pair in C as [_ <-]. eexists _, _, _, _. split; [reflexivity|].
  split; [reflexivity|]. split; [reflexivity|]. split.
  { intros k N. rewrite get_setdefault. unfold copy_of.
    destruct (o_momentum o) as [r|].
    - destruct (dict_get (h r) "snes_type"); [reflexivity|].
      destruct (String.eqb_spec k "snes_type") as [E|E]; [|reflexivity].
      exfalso. apply N. left. now symmetry.
    - cbn [dict_get]. destruct (String.eqb_spec k "snes_type") as [E|E]; [|reflexivity].
      exfalso. apply N. left. now symmetry. }
  split; [apply monolithic_same, setdefault_same|].
  intros L. rewrite get_monolithic, get_setdefault. cbn [String.eqb Ascii.eqb Bool.eqb].
  rewrite L. destruct (dict_get _ "snes_type"); reflexivity.
Qed.

(** The parameters given as solver_parameters_pressure reach no solver: two
    runs that differ only in them and do not raise have the same solvers. *)
Theorem C66_pressure_parameters_used_refuted c h1 h2 o eq h1' h2' s1 s2 :
  o_pressure o <> o_params o -> o_momentum o <> Some (o_pressure o) ->
  (forall r, r <> o_pressure o -> h1 r = h2 r) ->
  construct (PPP c) h1 o eq = inl (h1', s1) ->
  construct (PPP c) h2 o eq = inl (h2', s2) ->
  s1 = s2.
Proof.
  cbn [construct]. unfold pressure_projection. intros N1 N2 S C1 C2.
  destruct (o_semi o) as [semi|]; [|discriminate].
  destruct (guard (h1 _) _) as [[|]|]; try discriminate.
  destruct (guard (h2 _) _) as [[|]|]; try discriminate.
  apply inl_pair in C1 as [_ <-]. apply inl_pair in C2 as [_ <-].
  rewrite (S (o_params o)) by (intros E; now apply N1).
  destruct (o_momentum o) as [r|]; [|reflexivity].
  rewrite (S r) by (intros ->; now apply N2). reflexivity.
Qed.

(** The default option object (options.py:97-135): nothing of the Schur
    complement settings is in what the wave solver gets. *)
Definition default_pressure : dict :=
  [("ksp_type", PStr "preonly"); ("mat_type", PStr "matfree");
   ("pc_type", PStr "fieldsplit"); ("pc_fieldsplit_type", PStr "schur");
   ("pc_fieldsplit_schur_fact_type", PStr "full");
   ("fieldsplit_U_2d", PDict
      [("ksp_type", PStr "gmres"); ("pc_type", PStr "python");
       ("pc_python_type", PStr "firedrake.AssembledPC");
       ("assembled_ksp_type", PStr "preonly");
       ("assembled_pc_type", PStr "bjacobi"); ("assembled_sub_pc_type", PStr "ilu")]);
   ("fieldsplit_H_2d", PDict
      [("ksp_type", PStr "preonly"); ("pc_type", PStr "python");
       ("pc_python_type", PStr "thetis.AssembledSchurPC");
       ("schur_ksp_type", PStr "gmres"); ("schur_ksp_max_it", PStr "100");
       ("schur_pc_type", PStr "gamg")])].
Definition default_momentum : dict :=
  [("ksp_type", PStr "gmres"); ("pc_type", PStr "bjacobi");
   ("sub_ksp_type", PStr "preonly"); ("sub_pc_type", PStr "sor")].
Definition default_heap : heap :=
  fun r => match r with 1 => default_pressure | 2 => default_momentum | _ => [] end.

Theorem C66_default_projection_refuted :
  exists h' sm sw,
    construct (PPP true) default_heap semi_opts "ShallowWaterEquations" = inl (h', [sm; sw]) /\
    sv_params sm = Some (default_momentum ++ [("snes_type", PStr "ksponly")])%list /\
    sv_params sw = Some [("snes_type", PStr "ksponly")].
Proof. eexists _, _, _. split; [reflexivity|]. now split. Qed.

(** When the constructor refuses: exactly if the parameters that it looks at
    are those of the Schur complement settings and the elevation space is not
    continuous. *)
Theorem C66_guard p sub eta_cg kt kt2 pt :
  dict_get p "ksp_type" = Some (PStr kt) ->
  dict_get p "fieldsplit_H_2d" = Some (PDict sub) ->
  dict_get sub "ksp_type" = Some (PStr kt2) ->
  dict_get sub "pc_python_type" = Some (PStr pt) ->
  (guard p eta_cg = inl true <->
   kt = "preonly" /\ kt2 = "preonly" /\ pt = "thetis.AssembledSchurPC" /\ eta_cg = false) /\
  (guard p eta_cg = inl true \/ guard p eta_cg = inl false).
Proof.
  intros A B C D. unfold guard, getitem, getitem_p, getitem. rewrite A, B.
  cbn [peq is_str negb]. unfold peq, is_str.
  destruct (String.eqb_spec kt "preonly") as [E1|E1]; cbn [negb].
  2: { split; [split; [discriminate|tauto]|now right]. }
  rewrite C. unfold is_str.
  destruct (String.eqb_spec kt2 "preonly") as [E2|E2]; cbn [negb].
  2: { split; [split; [discriminate|tauto]|now right]. }
  rewrite D. unfold is_str.
  destruct (String.eqb_spec pt "thetis.AssembledSchurPC") as [E3|E3]; cbn [negb].
  2: { split; [split; [discriminate|tauto]|now right]. }
  destruct eta_cg; cbn [negb].
  - split; [|now right]. split; [discriminate|]. intros (_ & _ & _ & X). discriminate.
  - split; [|now left]. split; [|reflexivity]. tauto.
Qed.

(** Parameters without 'ksp_type' are legal for PETSc but stop the
    constructor with a KeyError. *)
Theorem C66_pressure_parameters_accepted_refuted eta_cg p h o eq semi :
  o_semi o = Some semi -> h (o_pressure o) = p -> dict_get p "ksp_type" = None ->
  construct (PPP eta_cg) h o eq = inr (KeyError "ksp_type").
Proof.
  intros S H G. cbn [construct]. unfold pressure_projection. rewrite S, H.
  unfold guard, getitem. now rewrite G.
Qed.

Example C66_pressure_lu :
  construct (PPP true) lu_heap base_opts "ShallowWaterEquations" = inr (KeyError "ksp_type").
Proof. now apply (C66_pressure_parameters_accepted_refuted true [("pc_type", PStr "lu")] _ _ _ false). Qed.

(** The leapfrog scheme passes no parameters on. *)
Theorem C66_leapfrog_parameters_refuted h o eq h' svs :
  construct LF h o eq = inl (h', svs) -> forall s, In s svs -> sv_params s = None.
Proof.
  cbn [construct]. unfold leap_frog. intros C s Hs. apply inl_pair in C as [_ <-].
  now destruct Hs as [<-|[]].
Qed.

(* ------------------------------------------------------------------ *)
(** * Identifiers *)

Lemma append_inj_l (a b c : string) : (a ++ b = a ++ c)%string -> b = c.
Proof. induction a; cbn; intros H; [exact H|]. injection H. exact IHa. Qed.

Lemma append_assoc (a b c : string) : ((a ++ b) ++ c = a ++ b ++ c)%string.
Proof. induction a; cbn; congruence. Qed.

Lemma append_snoc_inj (x : ascii) (a b : string) :
  (a ++ String x "" = b ++ String x "")%string -> a = b.
Proof.
  revert b. induction a as [|c a IH]; intros [|d b]; cbn; intros H.
  - reflexivity.
  - injection H as E1 E2. destruct b; discriminate.
  - injection H as E1 E2. destruct a; discriminate.
  - injection H as E1 E2. subst d. f_equal. now apply IH.
Qed.

Lemma digit_inj i j : digit i = digit j -> i = j.
Proof.
  unfold digit. intros H. apply (f_equal undec) in H. rewrite !undec_dec in H.
  injection H. lia.
Qed.

Lemma nodup_map_inj {A B} (f : A -> B) l :
  (forall x y, f x = f y -> x = y) -> NoDup l -> NoDup (map f l).
Proof.
  intros J N. induction N as [|x l Hx N IH]; cbn; constructor; [|exact IH].
  intros H. apply in_map_iff in H as (y & E & Hy). apply J in E. now subst.
Qed.

Lemma nodup_app {A} (l1 l2 : list A) :
  NoDup l1 -> NoDup l2 -> (forall x, In x l1 -> ~ In x l2) -> NoDup (l1 ++ l2).
Proof.
  intros N1 N2 D. induction N1 as [|x l Hx N IH]; [exact N2|].
  cbn. constructor.
  - intros H. apply in_app_iff in H as [H|H]; [contradiction|]. apply (D x); [now left|exact H].
  - apply IH. intros y Hy. apply D. now right.
Qed.

(** The solvers of one integrator have different options prefixes, so that
    command line options address one of them. *)
Theorem C66_prefixes_distinct J h o eq h' svs :
  construct J h o eq = inl (h', svs) ->
  match J with IMEX _ _ _ _ => False | _ => True end ->
  NoDup (map sv_prefix svs).
Proof.
  assert (One : forall s : solver, NoDup (map sv_prefix [s])).
  { intros s. cbn. constructor; [intros []|constructor]. }
  assert (St : forall a b n, NoDup (map (fun i => (a ++ b ++ digit i ++ "_")%string) (seq 0 n))).
  { intros a b n. apply nodup_map_inj; [|apply seq_NoDup]. intros x y E.
    apply append_inj_l, append_inj_l, append_snoc_inj in E. now apply digit_inj. }
  assert (Kt : forall a b n, NoDup (map (fun i => (a ++ b ++ digit i)%string) (seq 0 n))).
  { intros a b n. apply nodup_map_inj; [|apply seq_NoDup]. intros x y E.
    apply append_inj_l, append_inj_l in E. now apply digit_inj. }
  intros C NI.
  destruct J as [| | |c| | |c n|c n|c n t|c t|dc ec n t]; try contradiction; cbn [construct] in C.
  - apply inl_pair in C as [_ <-]. apply One.
  - unfold crank_nicolson in C. destruct (o_semi o); [|discriminate].
    apply inl_pair in C as [_ <-]. apply One.
  - apply inl_pair in C as [_ <-]. apply One.
  - unfold pressure_projection in C. destruct (o_semi o); [|discriminate].
    destruct (guard _ _) as [[|]|]; try discriminate.
    apply inl_pair in C as [_ <-]. cbn [map sv_prefix].
    constructor; [|constructor; [intros []|constructor]].
    intros [E|[]]. apply (f_equal String.length) in E.
    assert (L : forall a b, String.length (a ++ b) = String.length a + String.length b).
    { intros x. induction x as [|z x IHx]; intros y; cbn; [reflexivity|now rewrite IHx]. }
    rewrite L in E. cbn [String.length] in E. lia.
  - apply inl_pair in C as [_ <-]. apply One.
  - apply inl_pair in C as [_ <-]. apply One.
  - unfold dirk in C. apply inl_pair in C as [_ <-]. rewrite map_map. cbn [sv_prefix]. apply St.
  - unfold dirk_uform in C. destruct (o_semi o); [|discriminate].
    apply inl_pair in C as [_ <-]. rewrite map_app, !map_map. cbn [sv_prefix].
    apply nodup_app; [apply St|apply St|].
    intros x H1 H2. apply in_map_iff in H1 as (i & <- & _). apply in_map_iff in H2 as (j & E & _).
    apply append_inj_l in E. cbn in E. injection E. discriminate.
  - unfold erk in C. apply inl_pair in C as [_ <-]. destruct t; [|constructor].
    rewrite map_map. cbn [sv_prefix]. apply Kt.
  - unfold erk_shu_osher in C. apply inl_pair in C as [_ <-]. destruct t; [|constructor]. apply One.
Qed.

(** The options prefix is described as a unique identifier, but solvers of two
    tracers have the same one: it only depends on the class names. *)
Theorem C66_identifier_unique_refuted J h1 h2 o1 o2 eq h1' h2' s1 s2 :
  construct J h1 o1 eq = inl (h1', s1) -> construct J h2 o2 eq = inl (h2', s2) ->
  map sv_prefix s1 = map sv_prefix s2.
Proof.
  intros C1 C2.
  destruct J as [| | |c| | |c n|c n|c n t|c t|dc ec n t]; cbn [construct] in C1, C2.
  - apply inl_pair in C1 as [_ <-]. apply inl_pair in C2 as [_ <-]. reflexivity.
  - unfold crank_nicolson in C1, C2. destruct (o_semi o1), (o_semi o2); try discriminate.
    apply inl_pair in C1 as [_ <-]. apply inl_pair in C2 as [_ <-]. reflexivity.
  - apply inl_pair in C1 as [_ <-]. apply inl_pair in C2 as [_ <-]. reflexivity.
  - unfold pressure_projection in C1, C2. destruct (o_semi o1), (o_semi o2); try discriminate.
    destruct (guard (h1 _) _) as [[|]|], (guard (h2 _) _) as [[|]|]; try discriminate.
    apply inl_pair in C1 as [_ <-]. apply inl_pair in C2 as [_ <-]. reflexivity.
  - apply inl_pair in C1 as [_ <-]. apply inl_pair in C2 as [_ <-]. reflexivity.
  - apply inl_pair in C1 as [_ <-]. apply inl_pair in C2 as [_ <-]. reflexivity.
  - apply inl_pair in C1 as [_ <-]. apply inl_pair in C2 as [_ <-].
    rewrite !map_map. reflexivity.
  - unfold dirk_uform in C1, C2. destruct (o_semi o1), (o_semi o2); try discriminate.
    apply inl_pair in C1 as [_ <-]. apply inl_pair in C2 as [_ <-].
    rewrite !map_app, !map_map. reflexivity.
  - apply inl_pair in C1 as [_ <-]. apply inl_pair in C2 as [_ <-].
    destruct t; [|reflexivity]. rewrite !map_map. reflexivity.
  - apply inl_pair in C1 as [_ <-]. apply inl_pair in C2 as [_ <-].
    destruct t; reflexivity.
  - unfold imex, dirk, erk in C1, C2.
    apply inl_pair in C1 as [_ <-]. apply inl_pair in C2 as [_ <-].
    rewrite !map_app, !map_map. destruct t; [|reflexivity]. rewrite !map_map. reflexivity.
Qed.

(** A tag the user gives marks all solvers of the integrator; the suffixes
    '_impl' and '_expl' of the implicit-explicit schemes come too late to reach
    them. *)
Theorem C66_tags d e n t h o eq h' svs tag :
  construct (IMEX d e n t) h o eq = inl (h', svs) ->
  o_tag o = Some tag -> tag <> "" ->
  map sv_tag svs =
  (map (fun i => (tag ++ "_stage" ++ digit i)%string) (seq 0 n) ++
   if t then map (fun i => (tag ++ "_k" ++ digit i)%string) (seq 0 n) else [])%list.
Proof.
  cbn [construct]. unfold imex, dirk, erk. intros C T N. apply inl_pair in C as [_ <-].
  rewrite map_app, map_map. cbn [sv_tag]. unfold tag_of. rewrite T.
  destruct (String.eqb_spec tag ""); [contradiction|].
  destruct t; [|reflexivity]. rewrite map_map. reflexivity.
Qed.

(* ------------------------------------------------------------------ *)
(** * Cases *)

Example C66_case :
  exists h' s, construct CN ksp_heap base_opts "ShallowWaterEquations" = inl (h', [s]) /\
    sv_prefix s = "CrankNicolson-ShallowWaterEquations" /\
    sv_params s = Some [("ksp_type", PStr "gmres"); ("snes_type", PStr "newtonls")] /\
    h' 0 = [("ksp_type", PStr "gmres"); ("snes_type", PStr "newtonls")] /\
    h' 1 = ksp_heap 1.
Proof. eexists _, _. split; [reflexivity|]. now repeat split. Qed.

Example C66_imex_case :
  exists h' s1 s2 s3 s4,
    construct (IMEX "ESDIRKMidpoint" "ERKMidpoint" 2 true) ksp_heap base_opts "TracerEquation2D"
      = inl (h', [s1; s2; s3; s4]) /\
    map sv_prefix [s1; s2; s3; s4] =
      ["ESDIRKMidpoint-TracerEquation2D_stage0_"; "ESDIRKMidpoint-TracerEquation2D_stage1_";
       "ERKMidpoint-TracerEquation2D_k0"; "ERKMidpoint-TracerEquation2D_k1"].
Proof. eexists _, _, _, _, _. split; [reflexivity|]. reflexivity. Qed.

Print Assumptions C66_parameters_reach_solvers.
Print Assumptions C66_prefixes_distinct.
Print Assumptions C66_history.
