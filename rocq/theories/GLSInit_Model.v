(** Model of GLSModelOptions (thetis/options.py:293-440) and of the constructor of
    GenericLengthScaleModel (thetis/turbulence.py:415-452), which completes the options
    and may change the von Karman constant shared by the whole program.
    Real arithmetic; x**y with a real exponent is [Rpower]. *)
From Coq Require Import Reals String List Bool.
From Verif Require Import Stability_Model Turb_Model.
Import ListNotations.
Open Scope string_scope.
Open Scope R_scope.

(** the traits of GLSModelOptions, options.py:293-365, without those that the
    constructor and apply_defaults never touch (limits on viscosity, diffusivity and the
    four limiter switches) *)
Record opts := mkOpts {
  g_closure : string; g_stability : string;
  g_p : R; g_m : R; g_n : R; g_sk : R; g_spsi : R; g_cmu0 : R;
  g_c1 : R; g_c2 : R; g_c3m : R; g_c3p : R; g_fwall : R; g_ri : R; g_kappa : R;
  g_kmin : R; g_psimin : R; g_epsmin : R; g_lenmin : R; g_clim : R;
  f_cmu0 : bool; f_c3m : bool; f_kappa : bool; f_spsi : bool;
  f_clim : bool; f_lenmin : bool; f_psimin : bool }.
(** the default values, options.py:295-352 *)
Definition defaults : opts :=
  mkOpts "k-epsilon" "Canuto A" 3 1.5 (-1) 1 1.3 0.5477 1.44 1.92 (-0.52) 1 1 0.25 0.4
         1e-6 1e-14 1e-14 1e-12 0.30 true true false true true false false.

(** attribute assignments *)
Definition set_cmu0 (o : opts) (v : R) : opts :=
  mkOpts (g_closure o) (g_stability o) (g_p o) (g_m o) (g_n o) (g_sk o) (g_spsi o) v
    (g_c1 o) (g_c2 o) (g_c3m o) (g_c3p o) (g_fwall o) (g_ri o) (g_kappa o) (g_kmin o) (g_psimin o)
    (g_epsmin o) (g_lenmin o) (g_clim o)
    (f_cmu0 o) (f_c3m o) (f_kappa o) (f_spsi o) (f_clim o) (f_lenmin o) (f_psimin o).
Definition set_kappa (o : opts) (v : R) : opts :=
  mkOpts (g_closure o) (g_stability o) (g_p o) (g_m o) (g_n o) (g_sk o) (g_spsi o) (g_cmu0 o)
    (g_c1 o) (g_c2 o) (g_c3m o) (g_c3p o) (g_fwall o) (g_ri o) v (g_kmin o) (g_psimin o)
    (g_epsmin o) (g_lenmin o) (g_clim o)
    (f_cmu0 o) (f_c3m o) (f_kappa o) (f_spsi o) (f_clim o) (f_lenmin o) (f_psimin o).
Definition set_spsi (o : opts) (v : R) : opts :=
  mkOpts (g_closure o) (g_stability o) (g_p o) (g_m o) (g_n o) (g_sk o) v (g_cmu0 o)
    (g_c1 o) (g_c2 o) (g_c3m o) (g_c3p o) (g_fwall o) (g_ri o) (g_kappa o) (g_kmin o) (g_psimin o)
    (g_epsmin o) (g_lenmin o) (g_clim o)
    (f_cmu0 o) (f_c3m o) (f_kappa o) (f_spsi o) (f_clim o) (f_lenmin o) (f_psimin o).
Definition set_c3m (o : opts) (v : R) : opts :=
  mkOpts (g_closure o) (g_stability o) (g_p o) (g_m o) (g_n o) (g_sk o) (g_spsi o) (g_cmu0 o)
    (g_c1 o) (g_c2 o) v (g_c3p o) (g_fwall o) (g_ri o) (g_kappa o) (g_kmin o) (g_psimin o)
    (g_epsmin o) (g_lenmin o) (g_clim o)
    (f_cmu0 o) (f_c3m o) (f_kappa o) (f_spsi o) (f_clim o) (f_lenmin o) (f_psimin o).
Definition set_psimin (o : opts) (v : R) : opts :=
  mkOpts (g_closure o) (g_stability o) (g_p o) (g_m o) (g_n o) (g_sk o) (g_spsi o) (g_cmu0 o)
    (g_c1 o) (g_c2 o) (g_c3m o) (g_c3p o) (g_fwall o) (g_ri o) (g_kappa o) (g_kmin o) v
    (g_epsmin o) (g_lenmin o) (g_clim o)
    (f_cmu0 o) (f_c3m o) (f_kappa o) (f_spsi o) (f_clim o) (f_lenmin o) (f_psimin o).
Definition set_lenmin (o : opts) (v : R) : opts :=
  mkOpts (g_closure o) (g_stability o) (g_p o) (g_m o) (g_n o) (g_sk o) (g_spsi o) (g_cmu0 o)
    (g_c1 o) (g_c2 o) (g_c3m o) (g_c3p o) (g_fwall o) (g_ri o) (g_kappa o) (g_kmin o) (g_psimin o)
    (g_epsmin o) v (g_clim o)
    (f_cmu0 o) (f_c3m o) (f_kappa o) (f_spsi o) (f_clim o) (f_lenmin o) (f_psimin o).
Definition set_clim (o : opts) (v : R) : opts :=
  mkOpts (g_closure o) (g_stability o) (g_p o) (g_m o) (g_n o) (g_sk o) (g_spsi o) (g_cmu0 o)
    (g_c1 o) (g_c2 o) (g_c3m o) (g_c3p o) (g_fwall o) (g_ri o) (g_kappa o) (g_kmin o) (g_psimin o)
    (g_epsmin o) (g_lenmin o) v
    (f_cmu0 o) (f_c3m o) (f_kappa o) (f_spsi o) (f_clim o) (f_lenmin o) (f_psimin o).
(** the user sets the name of the closure, an Enum trait without an observer,
    options.py:296-299 *)
Definition set_closure (o : opts) (v : string) : opts :=
  mkOpts v (g_stability o) (g_p o) (g_m o) (g_n o) (g_sk o) (g_spsi o) (g_cmu0 o)
    (g_c1 o) (g_c2 o) (g_c3m o) (g_c3p o) (g_fwall o) (g_ri o) (g_kappa o) (g_kmin o) (g_psimin o)
    (g_epsmin o) (g_lenmin o) (g_clim o)
    (f_cmu0 o) (f_c3m o) (f_kappa o) (f_spsi o) (f_clim o) (f_lenmin o) (f_psimin o).

(** the dictionaries of apply_defaults, 382-430: p, m, n, cmu0, schmidt_nb_tke,
    schmidt_nb_psi, c1, c2, c3_plus, c3_minus, f_wall, k_min, eps_min, psi_min, and the
    assignments of configuration.py:262-275 (all values are valid for their traits) *)
Definition update (o : opts) (name : string) (p m n cmu0 sk spsi c1 c2 c3p c3m fw km em pm : R) : opts :=
  mkOpts name (g_stability o) p m n sk spsi cmu0 c1 c2 c3m c3p fw (g_ri o) (g_kappa o)
    km pm em (g_lenmin o) (g_clim o)
    (f_cmu0 o) (f_c3m o) (f_kappa o) (f_spsi o) (f_clim o) (f_lenmin o) (f_psimin o).
(** apply_defaults, 369-438; [None] is the ValueError *)
Definition apply_defaults (closure : string) (o : opts) : option opts :=
  if String.eqb closure "k-epsilon" then
    Some (update o "k-epsilon" 3 1.5 (-1) 0.5477 1 1.3 1.44 1.92 1 (-0.52) 1 1e-6 1e-14 1e-14)
  else if String.eqb closure "k-omega" then
    Some (update o "k-omega" (-1) 0.5 (-1) 0.5477 2 2 0.555 0.833 1 (-0.52) 1 7.6e-6 1e-14 1e-14)
  else if String.eqb closure "Generic Length Scale" then
    Some (update o "Generic Length Scale" 2 1 (-0.67) 0.5477 0.8 1.07 1 1.22 1 0.05 1 1e-6 1e-14 1e-14)
  else None.

(** choice of the stability function, turbulence.py:425-434; [None] is the exception *)
Definition stability (name : string) : option coeffs :=
  if String.eqb name "Kantha-Clayson" then Some (gotm_coeffs gotm_kantha_clayson)
  else if String.eqb name "Canuto A" then Some (canuto_coeffs canutoA)
  else if String.eqb name "Canuto B" then Some (canuto_coeffs canutoB)
  else if String.eqb name "Cheng" then Some (cheng_coeffs cheng)
  else None.

(** outcomes of the constructor *)
Inductive result := Built (o : opts) (von_karman : R) | Failed.
(** PositiveFloat.validate, configuration.py:85-92 *)
Definition positive (v : R) (k : result) : result := if Rlt_dec 0 v then k else Failed.

(** psi_min and len_min, 447 and 450, through the definitions of Turb_Model, which read
    only p, m, n and cmu0 *)
Definition gls_of (o : opts) : gls :=
  mkGLS (g_p o) (g_m o) (g_n o) (g_cmu0 o) (g_kmin o) (g_psimin o) (g_epsmin o) (g_lenmin o)
        0 0 (g_clim o) false false false false.

(** The constructor from the choice of the stability function on, 425-452, and the
    value of physical_constants['von_karman'] when it returns.  [numerical c ri] is the
    minimiser called by compute_c3_minus (stability_functions.py:156-167); a vanishing
    d5 - n2 makes compute_cmu0 divide zero by zero, and the resulting nan is refused by
    the trait. *)
Section Construct.
Variable numerical : coeffs -> R -> R.
Definition with_cmu0 (c : coeffs) (o : opts) (k : opts -> result) : result :=
  if f_cmu0 o then
    if Req_EM_T (d5 c - n2 c) 0 then Failed
    else positive (compute_cmu0 c) (k (set_cmu0 o (compute_cmu0 c)))
  else k o.
Definition with_kappa (vk : R) (o : opts) (k : opts -> R -> result) : result :=
  if f_kappa o then
    let kap := compute_kappa (g_spsi o) (g_cmu0 o) (g_n o) (g_c1 o) (g_c2 o) in
    k (set_kappa o kap) kap
  else if f_spsi o then
    let s := compute_sigma_psi (g_kappa o) (g_cmu0 o) (g_n o) (g_c1 o) (g_c2 o) in
    positive s (k (set_spsi o s) vk)
  else k o vk.
Definition with_rest (c : coeffs) (o : opts) (vk : R) : result :=
  let o := if f_c3m o then set_c3m o (c3_minus_of c (numerical c (g_ri o)) (g_c1 o) (g_c2 o) (g_ri o)) else o in
  (fun k => if f_psimin o then
              let v := psi_of_eps (gls_of o) (g_kmin o) (g_epsmin o) in positive v (k (set_psimin o v))
            else k o) (fun o =>
  (fun k => if f_lenmin o then
              let v := len_of (gls_of o) (g_kmin o) (g_epsmin o) in positive v (k (set_lenmin o v))
            else k o) (fun o =>
  (fun k => if f_clim o then
              let v := compute_length_clim c (g_cmu0 o) (g_ri o) in positive v (k (set_clim o v))
            else k o) (fun o => Built o vk))).
Definition construct (o : opts) (vk : R) : result :=
  match stability (g_stability o) with
  | None => Failed
  | Some c => with_cmu0 c o (fun o => with_kappa vk o (with_rest c))
  end.
(** several models built one after the other in one program *)
Fixpoint program (os : list opts) (vk : R) : option (list opts * R) :=
  match os with
  | [] => Some ([], vk)
  | o :: r => match construct o vk with
              | Built o' vk' => match program r vk' with
                                | Some (l, v) => Some (o' :: l, v)
                                | None => None end
              | Failed => None end
  end.
End Construct.
