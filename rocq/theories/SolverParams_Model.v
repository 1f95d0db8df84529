(** Model of how solver parameters travel from the option objects to the
    solvers that the time integrators create:
    /repo/thetis/timeintegrator.py, rungekutta.py and implicitexplicit.py.

    Python dictionaries are objects: an option object holds references to
    them, and constructors that call [setdefault] on them change what every
    other holder sees.  The model therefore keeps a heap of dictionaries.
    A solver object is represented by its options prefix, its adjoint tag and
    a copy of the parameters it was created with (Firedrake flattens the
    dictionary when the solver is created); [None] means that no parameters
    were passed.  Values are strings or nested dictionaries; numbers are
    represented by their text.  The forms themselves are in other files. *)

From Coq Require Import List String Bool Arith NArith.
From Verif Require Import Exporter_Model.
Import ListNotations.
Open Scope string_scope.

Inductive pval := PStr (s : string) | PDict (d : list (string * pval)).
Definition dict := list (string * pval).

Definition ref := nat.
Definition heap := ref -> dict.
Definition hset (h : heap) (r : ref) (d : dict) : heap :=
  fun x => if Nat.eqb x r then d else h x.

(** The option object of a time integrator, options.py:14-140: references to
    its dictionaries; [o_pressure]/[o_momentum] are only read by
    PressureProjectionPicard ([o_momentum] may be None);
    [o_semi] is None for option classes without
    use_semi_implicit_linearization. *)
Record opts := mk_opts
  { o_params : ref; o_pressure : ref; o_momentum : option ref;
    o_semi : option bool; o_tag : option string }.

Record solver := mk_solver
  { sv_prefix : string; sv_tag : string; sv_params : option dict }.

Inductive exn := KeyError (k : string) | AttributeError | TypeError | PicardUnsupported.

(** dict.setdefault *)
Definition setdefault (d : dict) (k : string) (v : pval) : dict :=
  match dict_get d k with Some _ => d | None => dict_set d k v end.

(** dict.update on an empty dictionary with a copy of [d]: the entries of [d]
    (timeintegrator.py:336-338). *)
Definition copy_of (d : dict) : dict := d.

(** TimeIntegrator.__init__, timeintegrator.py:63-68: the name and the adjoint
    tag; [cls] and [eq] are the class names.  An empty tag counts as none. *)
Definition name_of (cls eq : string) : string := (cls ++ "-" ++ eq)%string.
Definition tag_of (o : opts) (name : string) : string :=
  match o_tag o with
  | Some t => if String.eqb t "" then name else t
  | None => name
  end.

(** 'snes_type' default, timeintegrator.py:187-190, 339-347,
    rungekutta.py:464-467, 600-603. *)
Definition snes (semi : bool) : pval := PStr (if semi then "ksponly" else "newtonls").

Definition is_str (v : option pval) (s : string) : bool :=
  match v with Some (PStr x) => String.eqb x s | _ => false end.

(** "Ensure LU assembles monolithic matrices", timeintegrator.py:220-221,
    283-284, 433-434, rungekutta.py:657-658. *)
Definition monolithic (d : dict) : dict :=
  if is_str (dict_get d "pc_type") "lu" then dict_set d "mat_type" (PStr "aij") else d.

Definition digit (i : nat) : string := dec (N.of_nat i).

Definition result := ((heap * list solver) + exn)%type.

(** ForwardEuler, timeintegrator.py:131-149. *)
Definition forward_euler (h : heap) (o : opts) (eq : string) : result :=
  let name := name_of "ForwardEuler" eq in
  inl (h, [mk_solver name (tag_of o name) (Some (h (o_params o)))]).

(** CrankNicolson, timeintegrator.py:184-226. *)
Definition crank_nicolson (h : heap) (o : opts) (eq : string) : result :=
  let name := name_of "CrankNicolson" eq in
  match o_semi o with
  | None => inr AttributeError
  | Some semi =>
      let d := monolithic (setdefault (h (o_params o)) "snes_type" (snes semi)) in
      inl (hset h (o_params o) d, [mk_solver name (tag_of o name) (Some d)])
  end.

(** SteadyState, timeintegrator.py:274-289. *)
Definition steady_state (h : heap) (o : opts) (eq : string) : result :=
  let name := name_of "SteadyState" eq in
  let d := monolithic (setdefault (h (o_params o)) "snes_type" (snes false)) in
  inl (hset h (o_params o) d, [mk_solver name (tag_of o name) (Some d)]).

(** d[k] *)
Definition getitem (d : dict) (k : string) : pval + exn :=
  match dict_get d k with Some v => inl v | None => inr (KeyError k) end.

Definition getitem_p (v : pval) (k : string) : pval + exn :=
  match v with PDict d => getitem d k | PStr _ => inr TypeError end.

Definition peq (v : pval) (s : string) : bool := is_str (Some v) s.

(** The guard of PressureProjectionPicard, timeintegrator.py:358-370, with
    Python's evaluation order: true if the exception is raised.  [eta_cg]: the
    elevation space is continuous. *)
Definition guard (p : dict) (eta_cg : bool) : bool + exn :=
  match getitem p "ksp_type" with
  | inr e => inr e
  | inl kt =>
      if negb (peq kt "preonly") then inl false
      else match dict_get p "fieldsplit_H_2d" with
      | None => inl false
      | Some sub =>
          match getitem_p sub "ksp_type" with
          | inr e => inr e
          | inl kt2 =>
              if negb (peq kt2 "preonly") then inl false
              else match getitem_p sub "pc_python_type" with
              | inr e => inr e
              | inl pt =>
                  if negb (peq pt "thetis.AssembledSchurPC") then inl false
                  else inl (negb eta_cg)
              end
          end
      end
  end.

(** PressureProjectionPicard, timeintegrator.py:328-440.  The momentum solver
    gets a copy of solver_parameters_momentum (336-347, 427-431); the solver of
    the wave system gets [self.solver_parameters] (433-440), which
    timeintegrator.py:68 set to options.solver_parameters. *)
Definition pressure_projection (h : heap) (o : opts) (eq : string)
  (eta_cg : bool) : result :=
  let name := name_of "PressureProjectionPicard" eq in
  match o_semi o with
  | None => inr AttributeError
  | Some semi =>
      let mom0 := match o_momentum o with Some r => copy_of (h r) | None => [] end in
      let d := setdefault (h (o_params o)) "snes_type" (snes semi) in
      let mom := setdefault mom0 "snes_type" (snes semi) in
      match guard (h (o_pressure o)) eta_cg with
      | inr e => inr e
      | inl true => inr PicardUnsupported
      | inl false =>
          let d' := monolithic d in
          inl (hset h (o_params o) d',
               [mk_solver (name ++ "_mom") (tag_of o name ++ "_mom") (Some mom);
                mk_solver name (tag_of o name) (Some d')])
      end
  end.

(** LeapFrogAM3.initialize, timeintegrator.py:525-531: LinearSolver(matrix)
    without parameters. *)
Definition leap_frog (h : heap) (o : opts) (eq : string) : result :=
  inl (h, [mk_solver "" "" None]).

(** SSPRK22ALE.initialize, timeintegrator.py:661-670. *)
Definition ssprk22_ale (h : heap) (o : opts) (eq : string) : result :=
  inl (h, [mk_solver "" "" (Some (h (o_params o)))]).

(** DIRKGeneric, rungekutta.py:460-467 and 527-537; [cls] the class, [n] its
    number of stages. *)
Definition dirk (cls : string) (n : nat) (h : heap) (o : opts) (eq : string) : result :=
  let name := name_of cls eq in
  let semi := match o_semi o with Some s => s | None => false end in
  let d := setdefault (h (o_params o)) "snes_type" (snes semi) in
  inl (hset h (o_params o) d,
       map (fun i => mk_solver (name ++ "_stage" ++ digit i ++ "_")
                               (tag_of o name ++ "_stage" ++ digit i) (Some d)) (seq 0 n)).

(** The fixed parameters of the tendency solves, rungekutta.py:669-673. *)
Definition k_params : dict :=
  [("snes_type", PStr "ksponly"); ("ksp_type", PStr "cg"); ("ksp_rtol", PStr "1e-8")].

(** DIRKGenericUForm, rungekutta.py:598-603 and 654-681. *)
Definition dirk_uform (cls : string) (n : nat) (h : heap) (o : opts) (eq : string) : result :=
  let name := name_of cls eq in
  match o_semi o with
  | None => inr AttributeError
  | Some semi =>
      let d := monolithic (setdefault (h (o_params o)) "snes_type" (snes semi)) in
      inl (hset h (o_params o) d,
           (map (fun i => mk_solver (name ++ "_stage" ++ digit i ++ "_")
                                   (tag_of o name ++ "_stage" ++ digit i) (Some d)) (seq 0 n)
           ++ map (fun i => mk_solver (name ++ "_k_stage" ++ digit i ++ "_")
                                   (tag_of o name ++ "_k_stage" ++ digit i) (Some k_params))
                  (seq 0 (n - 1)))%list)
  end.

(** ERKGeneric, rungekutta.py:808-818. [nontrivial]: some term is present. *)
Definition erk (cls : string) (n : nat) (nontrivial : bool) (h : heap) (o : opts)
  (eq : string) : result :=
  let name := name_of cls eq in
  inl (h, if nontrivial then
            map (fun i => mk_solver (name ++ "_k" ++ digit i)
                            (tag_of o name ++ "_k" ++ digit i) (Some (h (o_params o)))) (seq 0 n)
          else []).

(** ERKGenericShuOsher, rungekutta.py:918-925. *)
Definition erk_shu_osher (cls : string) (nontrivial : bool) (h : heap) (o : opts)
  (eq : string) : result :=
  let name := name_of cls eq in
  inl (h, if nontrivial then
            [mk_solver (name ++ "_k") (tag_of o name ++ "_k") (Some (h (o_params o)))]
          else []).

(** IMEXGeneric, implicitexplicit.py:42-54: both parts receive the same option
    object, the implicit part first.  Lines 49 and 54 change ad_block_tag after
    the solvers have been created and so do not change any solver. *)
Definition imex (dcls ecls : string) (n : nat) (nontrivial : bool) (h : heap)
  (o : opts) (eq : string) : result :=
  match dirk dcls n h o eq with
  | inr e => inr e
  | inl (h1, s1) =>
      match erk ecls n nontrivial h1 o eq with
      | inr e => inr e
      | inl (h2, s2) => inl (h2, (s1 ++ s2)%list)
      end
  end.
