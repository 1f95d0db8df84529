(** Model of thetis/turbulence.py in real arithmetic.  All turbulence fields are
    piecewise constant (solver.py:443), so the array operations act value by value.
    x**y with a real exponent is [Rpower], defined for x > 0. *)
From Coq Require Import Reals List Lra.
From Verif Require Import Stability_Model.
Open Scope R_scope.

(** set_func_min_val 152-156, set_func_max_val 159-163 *)
Definition set_min (minval x : R) : R := if Rlt_dec x minval then minval else x.
Definition set_max (maxval x : R) : R := if Rgt_dec x maxval then maxval else x.

(** ShearFrequencySolver.solve, 247-268: [gu], [gv] are the vertical gradients of the
    two velocity components; the state is (mu, mv), the result (mu', mv', m2) *)
Definition shear_solve (relaxation minval : R) (init : bool) (gu gv mu mv : R) : R * R * R :=
  let gamma := if init then 1 else relaxation in
  let mu' := gamma * gu + (1 - gamma) * mu in
  let mv' := gamma * gv + (1 - gamma) * mv in
  (mu', mv', set_min minval (mu' * mu' + mv' * mv')).
(** BuoyFrequencySolver.__init__ 280-305 and solve, 307-318; [minval] is accepted by the
    constructor and not used *)
Definition buoy_solve (relaxation minval : R) (init : bool) (gb n2 : R) : R :=
  let gamma := if init then 1 else relaxation in gamma * gb + (1 - gamma) * n2.
(** split of the buoyancy frequency, 500-507: (n2_pos, n2_neg) *)
Definition split_n2 (n2 : R) : R * R :=
  if Rle_dec 0 n2 then (n2, 0) else (1e-12, n2).

(** the options used by the model, options.py:293-365 *)
Record gls := mkGLS {
  o_p : R; o_m : R; o_n : R; o_cmu0 : R; o_k_min : R; o_psi_min : R; o_eps_min : R;
  o_len_min : R; o_visc_min : R; o_diff_min : R; o_clim : R;
  limit_len : bool; limit_psi : bool; limit_eps : bool; limit_len_min : bool }.
(** the fields at one point *)
Record turb := mkT { t_k : R; t_psi : R; t_eps : R; t_len : R; t_visc : R; t_diff : R;
                     t_n2 : R; t_n2_pos : R; t_n2_neg : R; t_m2 : R }.

(** GenericLengthScaleModel.__init__: psi_min 446-447, len_min 449-450 *)
Definition psi_of_eps (o : gls) (k eps : R) : R :=
  Rpower (Rpower (o_cmu0 o) (3 + o_p o / o_n o) * Rpower k (3 / 2 + o_m o / o_n o) * / eps) (o_n o).
Definition len_of (o : gls) (k eps : R) : R := o_cmu0 o ^ 3 * Rpower k (3 / 2) / eps.
(** epsilon from k and psi, 543 *)
Definition eps_of_psi (o : gls) (k psi : R) : R :=
  Rpower (o_cmu0 o) (3 + o_p o / o_n o) * Rpower k (3 / 2 + o_m o / o_n o)
  * Rpower psi (- 1 / o_n o).

(** initialize, 463-484, without the calls to preprocess and postprocess *)
Definition init_fields (o : gls) (continued : bool) (l_init : R) (s : turb) : turb :=
  let eps_init := o_cmu0 o ^ 3 * Rpower (o_k_min o) (3 / 2) / l_init in
  let '(k, psi, eps) := if continued then (t_k s, t_psi s, t_eps s)
                        else (o_k_min o, psi_of_eps o (o_k_min o) eps_init, eps_init) in
  mkT k psi eps (t_len s) (t_visc s) (t_diff s) 1e-12 1e-12 0 (t_m2 s).

(** postprocess, 510-577.  [stab] is stability_func.evaluate; the relaxation of the
    viscosity is the constant 1.0 (414) *)
Definition n2_pos_eps : R := 1e-12.
Definition psi_limit (o : gls) (k n2_pos : R) : R :=
  Rpower (sqrt 2 * o_clim o * Rpower (o_cmu0 o) (o_p o / o_n o)
          * Rpower k (o_m o / o_n o + 0.5) * Rpower (n2_pos + n2_pos_eps) (- 0.5)) (o_n o).
Definition post_psi (o : gls) (k n2_pos psi : R) : R :=
  let psi := if limit_psi o then
               if Rgt_dec (o_n o) 0 then Rmin psi (psi_limit o k n2_pos)
               else Rmax psi (psi_limit o k n2_pos)
             else psi in
  set_min (o_psi_min o) psi.
Definition post_eps (o : gls) (k n2_pos psi : R) : R :=
  let eps := eps_of_psi o k psi in
  let eps := if limit_eps o
             then Rmax eps (o_cmu0 o ^ 3 / (sqrt 2 * o_clim o) * sqrt n2_pos * k) else eps in
  set_min (o_eps_min o) eps.
Definition len_max (o : gls) (k n2_pos : R) : R :=
  o_clim o * sqrt (2 * k / (n2_pos + n2_pos_eps)).
Definition post_len (o : gls) (k n2_pos eps : R) : R :=
  let l := len_of o k eps in
  let l := if limit_len_min o then set_min (o_len_min o) l else l in
  if limit_len o then Rmin l (len_max o k n2_pos) else l.
Definition postprocess (stab : R -> R -> R -> R -> R * R) (o : gls) (s : turb) : turb :=
  let k := set_min (o_k_min o) (t_k s) in
  let psi := post_psi o k (t_n2_pos s) (t_psi s) in
  let eps := post_eps o k (t_n2_pos s) psi in
  let l := post_len o k (t_n2_pos s) eps in
  let f := stab (t_m2 s) (t_n2 s) k eps in
  let b := sqrt k * l in
  mkT k psi eps l
      (set_min (o_visc_min o) (b * fst f / o_cmu0 o ^ 3))
      (set_min (o_diff_min o) (b * snd f / o_cmu0 o ^ 3))
      (t_n2 s) (t_n2_pos s) (t_n2_neg s) (t_m2 s).

(** preprocess, 486-507: [m2] is the result of the shear frequency solver, [n2] that of
    the buoyancy solver, which runs only when there is a density field *)
Definition preprocess (m2 : R) (n2 : option R) (s : turb) : turb :=
  match n2 with
  | Some v => mkT (t_k s) (t_psi s) (t_eps s) (t_len s) (t_visc s) (t_diff s)
                  v (fst (split_n2 v)) (snd (split_n2 v)) m2
  | None => mkT (t_k s) (t_psi s) (t_eps s) (t_len s) (t_visc s) (t_diff s)
                (t_n2 s) (t_n2_pos s) (t_n2_neg s) m2
  end.
(** initialize, 463-484 *)
Definition initialize (stab : R -> R -> R -> R -> R * R) (o : gls) (continued : bool)
    (l_init m2 : R) (n2 : option R) (s : turb) : turb :=
  postprocess stab o (preprocess m2 n2 (init_fields o continued l_init s)).
(** _update_turbulence, coupled_timeintegrator.py:77-91: [psi] and [k] are the results
    of the two implicit solves *)
Definition update_turbulence (stab : R -> R -> R -> R -> R * R) (o : gls)
    (m2 : R) (n2 : option R) (psi k : R) (s : turb) : turb :=
  let s := preprocess m2 n2 s in
  postprocess stab o (mkT k psi (t_eps s) (t_len s) (t_visc s) (t_diff s)
                          (t_n2 s) (t_n2_pos s) (t_n2_neg s) (t_m2 s)).

(** 3D assign_initial_conditions, solver.py:952-957 and 970-971, restricted to the
    turbulence fields: initialize is called twice *)
Definition assign_initial (stab : R -> R -> R -> R -> R * R) (o : gls) (continued : bool)
    (tke psi : option R) (m2 : R) (n2 : option R) (m2' : R) (n2' : option R) (s : turb) : turb :=
  let s := match tke with Some v => mkT v (t_psi s) (t_eps s) (t_len s) (t_visc s) (t_diff s)
             (t_n2 s) (t_n2_pos s) (t_n2_neg s) (t_m2 s) | None => s end in
  let s := match psi with Some v => mkT (t_k s) v (t_eps s) (t_len s) (t_visc s) (t_diff s)
             (t_n2 s) (t_n2_pos s) (t_n2_neg s) (t_m2 s) | None => s end in
  initialize stab o continued 0.01 m2' n2' (initialize stab o continued 0.01 m2 n2 s).

(** One column of piecewise constant cells, numbered 0 .. nc-1 from the bottom; a
    field is a function of the cell number.  Horizontal facets have unit area and are
    level, [h] is the cell height (CellVolume / FacetArea, tracer_eq.py:342). *)
Record column := mkCol { nc : nat; h : nat -> R; visc : nat -> R; diff : nat -> R;
                         ck : nat -> R; ceps : nat -> R; cm2 : nat -> R;
                         cpos : nat -> R; cneg : nat -> R }.
(** interior penalty of VerticalDiffusionTerm on the facet between i and i+1 for
    degree 0: tracer_eq.py:340-352, with diffusivity viscosity/Schmidt number
    (turbulence.py:769-773); the gradient terms (337, 353-356) vanish *)
Definition conductance (c : column) (sipg schmidt : R) (i : nat) : R :=
  let sigma j := sipg * 1 / h c j in
  Rmax (sigma i) (sigma (S i)) * ((visc c i / schmidt + visc c (S i) / schmidt) / 2).
Definition below (g : nat -> R) (x : nat -> R) (i : nat) : R :=
  match i with O => 0 | S j => g j * (x i - x j) end.
Definition above (n : nat) (g : nat -> R) (x : nat -> R) (i : nat) : R :=
  if Nat.ltb (S i) n then g i * (x i - x (S i)) else 0.
Definition vdiffusion (c : column) (sipg schmidt : R) (x : nat -> R) (i : nat) : R :=
  - (below (conductance c sipg schmidt) x i + above (nc c) (conductance c sipg schmidt) x i).
(** TKESourceTerm.residual, 629-649, of cell i *)
Definition tke_source (c : column) (x : nat -> R) (i : nat) : R :=
  let p := visc c i * cm2 c i in
  let b_source := - diff c i * cneg c i in
  let b_sink := - diff c i * cpos c i in
  h c i * (p + b_source + (b_sink - ceps c i) / ck c i * x i).
(** PsiSourceTerm.residual, 688-739, of cell i; [old] is psi at the old time level *)
Record psi_opts := mkPsi { c1 : R; c2 : R; c3_minus : R; c3_plus : R; f_wall : R;
  schmidt_psi : R; pp : R; pm : R; pn : R; pcmu0 : R; kappa : R; roughness : R }.
Definition wall_flux (c : column) (q : psi_opts) (z0 : R) (i : nat) : R :=
  pn q * (visc c i / schmidt_psi q) * Rpower (pcmu0 q) (pp q) * Rpower (ck c i) (pm q)
  * Rpower (kappa q) (pn q) * Rpower (0.5 * h c i + z0) (pn q - 1).
Definition psi_source (c : column) (q : psi_opts) (old x : nat -> R) (i : nat) : R :=
  let p := visc c i * cm2 c i in
  let b_shear := c3_plus q * - diff c i * cneg c i in
  let b_buoy := c3_minus q * - diff c i * cpos c i in
  let b_source := if Rgt_dec (c3_minus q) 0 then b_shear else b_shear + b_buoy in
  let b_sink := if Rgt_dec (c3_minus q) 0 then b_buoy else 0 in
  h c i * (old i / ck c i * (c1 q * p + b_source)
           + x i / ck c i * (b_sink - c2 q * f_wall q * ceps c i))
  (* bottom: outward normal -1 *)
  + (if Nat.eqb i 0 then wall_flux c q (roughness q) i * -1 else 0)
  (* surface: outward normal +1 *)
  + (if Nat.eqb (S i) (nc c) then - wall_flux c q 0.05 i * 1 else 0).
(** one backward Euler step of TKEEquation (790-815) and PsiEquation (818-846):
    [x] is the new field *)
Definition tke_step (c : column) (sipg schmidt dt : R) (x : nat -> R) : Prop :=
  forall i, (i < nc c)%nat ->
    h c i * (x i - ck c i) = dt * (tke_source c x i + vdiffusion c sipg schmidt x i).
Definition psi_step (c : column) (q : psi_opts) (sipg dt : R) (old x : nat -> R) : Prop :=
  forall i, (i < nc c)%nat ->
    h c i * (x i - old i) = dt * (vdiffusion c sipg (schmidt_psi q) x i + psi_source c q old x i).

(** PacanowskiPhilanderModel.postprocess, 950-961 *)
Record pp_opts := mkPP { max_viscosity : R; pp_alpha : R; pp_exponent : R }.
Definition pp_postprocess (o : pp_opts) (n2_pos m2 : R) : R * R :=
  let denom := 1 + pp_alpha o * (n2_pos / m2) in
  let v := max_viscosity o / Rpower denom (pp_exponent o) in (v, v / denom).
