(** Model of thetis/inversion_tools.py: station observation managers, the cost
    function, regularisation, the optimisation records and the attribution of
    controls and gradients to the exported files.

    Real numbers stand for floats. Firedrake's part is reduced to: a vertex-only
    mesh gives every process a list of points (any order); evaluating the model
    field at a point is a function of the point; assembling an expression on a
    vertex-only mesh sums it over all points of all processes; the tape is a list
    of tagged block outputs in execution order. *)
From Coq Require Import Reals List Bool String.
Import ListNotations.
Open Scope R_scope.

Inductive ierr := AssertE | ValueE | IndexE | TypeE.
Inductive ires (A : Type) := IOk (a : A) | IErr (e : ierr).
Arguments IOk {A}. Arguments IErr {A}.
Definition ibind {A B} (x : ires A) (f : A -> ires B) : ires B :=
  match x with IOk a => f a | IErr e => IErr e end.
Fixpoint imap {A B} (f : A -> ires B) (l : list A) : ires (list B) :=
  match l with
  | [] => IOk []
  | a :: l' => ibind (f a) (fun b => ibind (imap f l') (fun r => IOk (b :: r)))
  end.

Definition rsum (l : list R) : R := fold_right Rplus 0 l.

(* ------------------------------------------------------------------ *)
(** * Observations *)

(** A value is a pair; scalar quantities use the first component only. *)
Definition val := (R * R)%type.
Definition point := (R * R)%type.

(** One entry of the lists given to register_observation_data,
    inversion_tools.py:680-725 (station name, x, y, time, data). *)
Record station := mk_station {
  st_name : string; st_xy : point; st_time : list R; st_u : list R; st_v : list R }.

(** A manager after register_observation_data; [None] for a window bound is the
    infinite default of lines 724-725 ([start_times or -inf]: an empty list is the
    default too). cost_function_scaling is line 660. *)
Record mgr := mk_mgr {
  g_scalar : bool; g_var : string; g_stations : list station;
  g_start : option (list R); g_end : option (list R); g_scaling : R }.

Definition given (b : option (list R)) : option (list R) :=
  match b with Some [] => None | _ => b end.

(** _start_times[j] / _end_times[j], lines 724-725 and 846-851 *)
Definition window (b : option (list R)) (j : nat) : ires (option R) :=
  match given b with
  | None => IOk None
  | Some l => match nth_error l j with Some t => IOk (Some t) | None => IErr IndexE end
  end.

(** obs_start_times <= t & t <= obs_end_times, lines 783-786 *)
Definition in_window (s e : option R) (t : R) : bool :=
  (match s with None => true | Some a => if Rle_dec a t then true else false end) &&
  (match e with None => true | Some b => if Rle_dec t b then true else false end).

(** interp_kw, lines 813-814: any finite bound switches bounds errors off
    (user given bounds are finite numbers in this model). *)
Definition fills (g : mgr) : bool :=
  match given (g_start g), given (g_end g) with None, None => false | _, _ => true end.

(** scipy's linear interp1d inside the range (times increasing; scipy sorts them). *)
Fixpoint interp_in (xs ys : list R) (t : R) : option R :=
  match xs, ys with
  | x0 :: ((x1 :: _) as xs'), y0 :: ((y1 :: _) as ys') =>
      if Rle_dec t x1 then Some (y0 + (y1 - y0) / (x1 - x0) * (t - x0)) else interp_in xs' ys' t
  | _, _ => None
  end.

(** interp1d(t, data, **interp_kw)(t), lines 834-841: out of range is a ValueError,
    or 0 with bounds_error=False, fill_value=0. Fewer than two samples are
    treated as an error (the library returns nan). *)
Definition interp1d (fill : bool) (xs ys : list R) (t : R) : ires R :=
  match xs with
  | [] => IErr ValueE
  | x0 :: _ =>
      if Rlt_dec t x0 then (if fill then IOk 0 else IErr ValueE)
      else if Rlt_dec (last xs x0) t then (if fill then IOk 0 else IErr ValueE)
      else match interp_in xs ys t with Some v => IOk v | None => IErr ValueE end
  end.

(* ------------------------------------------------------------------ *)
(** * construct_evaluator *)

Definition pdist (a b : point) : R :=
  sqrt ((fst a - fst b) * (fst a - fst b) + (snd a - snd b) * (snd a - snd b)).

(** numpy.argmin over the stations, lines 823-825: first smallest *)
Fixpoint nearest_station (l : list station) (j : nat) (p : point) : option (nat * R) :=
  match l with
  | [] => None
  | s :: l' =>
      match nearest_station l' (S j) p with
      | Some (k, d) => if Rlt_dec d (pdist (st_xy s) p) then Some (k, d) else Some (j, pdist (st_xy s) p)
      | None => Some (j, pdist (st_xy s) p)
      end
  end.

(** numpy.allclose of two coordinates (defaults), line 833 *)
Definition close (a b : R) : bool :=
  if Rle_dec (Rabs (a - b)) (0.00000001 + 0.00001 * Rabs b) then true else false.

(** What is kept for one local point, lines 819-851. *)
Record local := mk_local { lo_j : nat; lo_p : point; lo_s : option R; lo_e : option R }.
Definition make_local (g : mgr) (p : point) : ires local :=
  match nearest_station (g_stations g) 0 p with
  | None => IErr ValueE
  | Some (j, _) =>
      match nth_error (g_stations g) j with
      | None => IErr IndexE
      | Some s =>
          if close (fst (st_xy s)) (fst p) && close (snd (st_xy s)) (snd p) then
            ibind (window (g_start g) j) (fun a => ibind (window (g_end g) j) (fun b =>
            IOk (mk_local j p a b)))
          else IErr AssertE
      end
  end.
Definition construct (g : mgr) (procs : list (list point)) : ires (list (list local)) :=
  imap (imap (make_local g)) procs.

(* ------------------------------------------------------------------ *)
(** * eval_cost_function *)

(** eval_observation_at_time for one local point, lines 862-877 *)
Definition observe (g : mgr) (t : R) (x : local) : ires val :=
  match nth_error (g_stations g) (lo_j x) with
  | None => IErr IndexE
  | Some s =>
      ibind (interp1d (fills g) (st_time s) (st_u s) t) (fun u =>
      if g_scalar g then IOk (u, 0)
      else ibind (interp1d (fills g) (st_time s) (st_v s) t) (fun v => IOk (u, v)))
  end.

(** misfit_expr ** 2, lines 854-858 and 911 *)
Definition misfit2 (scalar : bool) (o m : val) : R :=
  if scalar then (fst o - fst m) * (fst o - fst m)
  else let r := sqrt ((fst o - fst m) * (fst o - fst m) + (snd o - snd m) * (snd o - snd m)) in r * r.

(** Sums with possibly non-finite summands ([None]: inf or nan). *)
Definition oadd (a b : option R) : option R :=
  match a, b with Some x, Some y => Some (x + y) | _, _ => None end.
Definition osum (l : list (option R)) : option R := fold_right oadd (Some 0) l.

(** scaling * indicator * weight * misfit**2 at one point, lines 910-911; a
    non-finite weight makes the product inf or nan. *)
Definition term (g : mgr) (w : nat -> option R) (md : point -> val) (t : R) (x : local) (o : val) : option R :=
  match w (lo_j x) with
  | None => None
  | Some wj => Some (g_scaling g * (if in_window (lo_s x) (lo_e x) t then 1 else 0) * wj
                     * misfit2 (g_scalar g) o (md (lo_p x)))
  end.

(** StationObservationManager.eval_cost_function, lines 879-913 *)
Definition eval_cost (g : mgr) (ls : list (list local)) (w : nat -> option R) (md : point -> val) (t : R)
  : ires (option R) :=
  ibind (imap (imap (fun x => ibind (observe g t x) (fun o => IOk (term g w md t x o)))) ls)
    (fun terms => IOk (osum (map osum terms))).

(** numpy.var *)
Definition mean (l : list R) : R := rsum l / INR (List.length l).
Definition var (l : list R) : R := mean (map (fun x => (x - mean l) * (x - mean l)) l).

(** apply_weighting, inversion_tools.py:470-489 *)
Definition magnitudes (s : station) : list R :=
  map (fun p => sqrt (fst p * fst p + snd p * snd p)) (combine (st_u s) (st_v s)).
Definition signal (g : mgr) (s : station) : list R := if g_scalar g then st_u s else magnitudes s.
Definition variance_weight (g : mgr) (j : nat) : option R :=
  match nth_error (g_stations g) j with
  | None => Some 1
  | Some s => if Req_EM_T (var (signal g s)) 0 then None else Some (1 / var (signal g s))
  end.
Definition weights (by_variance : bool) (g : mgr) : nat -> option R :=
  if by_variance then variance_weight g else fun _ => Some 1.

(** MultiStationObservationManager.eval_cost_function, lines 1034-1044 (a single
    manager is a list of one): every manager with its evaluator. *)
Record ready := mk_ready { r_g : mgr; r_ls : list (list local); r_w : nat -> option R; r_md : R -> point -> val }.
Fixpoint eval_multi (ms : list ready) (t : R) : ires (option R) :=
  match ms with
  | [] => IOk (Some 0)
  | m :: ms' =>
      ibind (eval_cost (r_g m) (r_ls m) (r_w m) (r_md m t) t) (fun a =>
      ibind (eval_multi ms' t) (fun b => IOk (oadd a b)))
  end.

(** The callable of get_cost_function over the exports of a run, lines 497-502:
    (J, J_misfit) *)
Fixpoint cost_run (ms : list ready) (ts : list R) (acc : option R * option R) : ires (option R * option R) :=
  match ts with
  | [] => IOk acc
  | t :: ts' => ibind (eval_multi ms t) (fun x => cost_run ms ts' (oadd (fst acc) x, oadd (snd acc) x))
  end.

(* ------------------------------------------------------------------ *)
(** * Regularisation *)

(** RegularizationCalculator.eval_cost_function, lines 1081-1083, as a quadrature
    sum; one quadrature point is (weight, value of regularization_expr). *)
Definition reg_eval (scaling area : R) (q : list (R * R)) : R :=
  rsum (map (fun x => fst x * (scaling * snd x / area)) q).

(** regularization_expr of the gradient and Hessian calculators, lines 1129 and
    1180: penalty * |.|^2 * h^k, with the squared components of the recovered
    derivative *)
Definition smooth_expr (gamma : R) (comps : list R) (h : R) (k : nat) : R :=
  gamma * rsum (map (fun c => c * c) comps) * h ^ k.

(** RSpaceRegularizationCalculator, lines 1197-1212: constant over the mesh *)
Definition rspace_expr (gamma f prior eps : R) : R :=
  gamma * ((f - prior) * (f - prior)) / Rmax (Rabs prior) eps.

(** ControlRegularizationManager, lines 1219-1238: one calculator per control *)
Definition reg_manager {C} (calc : C -> R -> R) (controls : list C) (gammas : list R) : ires R :=
  if Nat.eqb (List.length controls) (List.length gammas)
  then IOk (rsum (map (fun x => calc (fst x) (snd x)) (combine controls gammas))) else IErr AssertE.

(** get_cost_function's J_reg, lines 442-457 *)
Definition setup_reg {C} (calc : C -> R -> R) (controls : list C) (gammas : list R) : ires R :=
  match gammas with [] => IOk 0 | _ => reg_manager calc controls gammas end.

(* ------------------------------------------------------------------ *)
(** * Optimisation records *)
Section Records.
(** Controls, gradients, station series; the values the tape gives at a control. *)
Variables (M G Row : Type).
Variables (fJ fReg fMis : M -> R) (fG : M -> G) (fS : M -> Row).

(** The fields of InversionManager (lines 185-201) and of the station manager
    (lines 663, 668) that the records consist of; [c_tape] is the control at which
    the tape was evaluated last; [c_file] the rows of the progress file. *)
Record imst := mk_im {
  c_tape : M; c_J : R; c_Jreg : R; c_Jmis : R; c_dJ : option G; c_m : option M;
  p_J : list R; p_reg : list R; p_mis : list R; p_dJ : list G;
  c_i : nat; c_grads : nat; s_rows : list Row; s_last : option nat; c_file : option (list Row) }.

(** collect_time_series, lines 915-937 *)
Definition collect (it : nat) (x : imst) : imst :=
  let row := fS (c_tape x) in
  let rows := match s_last x with
    | Some k => if Nat.eqb it k then (removelast (s_rows x) ++ [row])%list else (s_rows x ++ [row])%list
    | None => (s_rows x ++ [row])%list
    end in
  mk_im (c_tape x) (c_J x) (c_Jreg x) (c_Jmis x) (c_dJ x) (c_m x) (p_J x) (p_reg x) (p_mis x) (p_dJ x)
    (c_i x) (c_grads x) rows (Some it) (c_file x).

(** Evaluating the reduced functional at [m]: functional_eval_cb, lines 356-366 *)
Definition do_eval (m : M) (x : imst) : imst :=
  collect (c_i x) (mk_im m (fJ m) (fReg m) (fMis m) (c_dJ x) (c_m x) (p_J x) (p_reg x) (p_mis x) (p_dJ x)
    (c_i x) (c_grads x) (s_rows x) (s_last x) (c_file x)).

(** The derivative at the taped control: gradient_eval_cb, lines 368-372 *)
Definition do_grad (x : imst) : imst :=
  mk_im (c_tape x) (c_J x) (c_Jreg x) (c_Jmis x) (Some (fG (c_tape x))) (Some (c_tape x))
    (p_J x) (p_reg x) (p_mis x) (p_dJ x) (c_i x) (S (c_grads x)) (s_rows x) (s_last x) (c_file x).

(** update_progress, lines 293-346 (printing and control export apart) *)
Definition update_progress (x : imst) : ires imst :=
  match c_dJ x with
  | None => IErr TypeE
  | Some g =>
      IOk (mk_im (c_tape x) (c_J x) (c_Jreg x) (c_Jmis x) (c_dJ x) (c_m x)
        (p_J x ++ [c_J x])%list (p_reg x ++ [c_Jreg x])%list (p_mis x ++ [c_Jmis x])%list (p_dJ x ++ [g])%list
        (S (c_i x)) 0 (s_rows x) (s_last x) (c_file x))
  end.

(** dump_time_series, lines 939-991: a new file with all rows *)
Definition dump (x : imst) : ires imst :=
  match s_last x with
  | None => IErr AssertE
  | Some _ =>
      IOk (mk_im (c_tape x) (c_J x) (c_Jreg x) (c_Jmis x) (c_dJ x) (c_m x) (p_J x) (p_reg x) (p_mis x) (p_dJ x)
        (c_i x) (c_grads x) (s_rows x) (s_last x) (Some (s_rows x)))
  end.

(** The beginning of minimize, lines 547-553 *)
Definition start (exports : bool) (m0 : M) (x : imst) : ires imst :=
  ibind (update_progress (do_grad (do_eval m0 x))) (fun y =>
  if exports then dump (collect (c_i y) y) else IOk y).

(** What an optimisation routine may do afterwards, in any order: evaluate the
    functional, ask for the derivative, call the callback (lines 526-535). *)
Inductive op := OEval (m : M) | OGrad | OCall.
Definition opt_step (exports : bool) (o : op) (x : imst) : ires imst :=
  match o with
  | OEval m => IOk (do_eval m x)
  | OGrad => IOk (do_grad x)
  | OCall => ibind (update_progress x) (fun y => if exports then dump y else IOk y)
  end.
Fixpoint opt_run (exports : bool) (ops : list op) (x : imst) : ires imst :=
  match ops with [] => IOk x | o :: r => ibind (opt_step exports o x) (opt_run exports r) end.

Definition fresh (m : M) : imst := mk_im m 0 0 0 None None [] [] [] [] 0 0 [] None None.
Definition optimise (exports : bool) (m0 : M) (ops : list op) : ires imst :=
  ibind (start exports m0 (fresh m0)) (opt_run exports ops).
End Records.

(* ------------------------------------------------------------------ *)
(** * The tape's tagged blocks *)
(** eval_cost_function tags the station values with the variable's name (line 908);
    collect_time_series reads all blocks with that tag (lines 929-931). *)
Section Tape.
Context {V : Type}.
Definition tag (v : string) : string := String.append v " observation".
Definition tape_of (vals : list (string * (R -> V))) (ts : list R) : list (string * V) :=
  flat_map (fun t => map (fun m => (tag (fst m), snd m t)) vals) ts.
Definition blocks (tape : list (string * V)) (v : string) : list V :=
  map snd (filter (fun b => String.eqb (fst b) (tag v)) tape).
End Tape.

(* ------------------------------------------------------------------ *)
(** * Controls and their exports *)
Section Controls.
Variables (C V K : Type).   (* controls, their values, masks *)

(** A ControlManager, lines 53-82; [cm_field] is is_field *)
Record cman := mk_cman { cm_controls : list C; cm_maps : option (list K); cm_field : bool }.

(** add_control, lines 210-251: [maps = None] makes one manager per control *)
Definition add_control (is_field : C -> bool) (controls : list C) (maps : option (list K)) (l : list cman) : list cman :=
  match maps with
  | Some ks => (l ++ [mk_cman controls (Some ks) false])%list
  | None => (l ++ map (fun c => mk_cman [c] None (is_field c)) controls)%list
  end.
(** control_coeff_list, lines 253-259; the Control objects are appended in the same order *)
Definition coeff_list (l : list cman) : list C := flat_map cm_controls l.

(** The terms of an exported field: value, and mask if any (export / export_gradient,
    lines 96-150) *)
Definition export (cm : cman) (vals : list V) : ires (list (V * option K)) :=
  match cm_maps cm with
  | Some ks => IOk (map (fun x => (fst x, Some (snd x))) (combine vals ks))
  | None =>
      if cm_field cm then match vals with [v] => IOk [(v, None)] | _ => IErr AssertE end
      else match vals with v :: _ => IOk [(v, None)] | [] => IErr IndexE end
  end.

(** The loop at the end of update_progress, lines 334-343 *)
Fixpoint export_all (cms : list cman) (vals : list V) (ref : nat) : ires (list (list (V * option K))) :=
  match cms with
  | [] => IOk []
  | cm :: r =>
      let n := match cm_maps cm with Some ks => List.length ks | None => 1%nat end in
      ibind (export cm (firstn n (skipn ref vals))) (fun e =>
      ibind (export_all r vals (ref + n)%nat) (fun es => IOk (e :: es)))
  end.
End Controls.
Arguments mk_cman {C K}. Arguments cm_controls {C K}. Arguments cm_maps {C K}. Arguments cm_field {C K}.
