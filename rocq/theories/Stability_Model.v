(** Model of thetis/stability_functions.py in real arithmetic.  The arrays of the
    code are treated point by point. *)
From Coq Require Import Reals Lra.
Open Scope R_scope.

(** coefficients set by StabilityFunctionBase.__init__, 122-140 *)
Record coeffs := mkC { d0 : R; d1 : R; d2 : R; d3 : R; d4 : R; d5 : R;
                       n0 : R; n1 : R; n2 : R; nb0 : R; nb1 : R; nb2 : R }.
(** the limiter switches of StabilityFunctionBase.__init__, 89-107 *)
Record limits := mkL { lim_alpha_shear : bool; lim_alpha_buoy : bool;
                       smooth_alpha_buoy_lim : bool; alpha_buoy_crit : R }.

(** compute_normalized_frequencies, 56-72 : (alpha_buoy, alpha_shear) *)
Definition compute_normalized_frequencies (shear2 buoy2 k eps : R) : R * R :=
  (k ^ 2 / eps ^ 2 * buoy2, k ^ 2 / eps ^ 2 * shear2).

(** eval_funcs, 316-329 *)
Definition eval_den (c : coeffs) (alpha_buoy alpha_shear : R) : R :=
  d0 c + d1 c * alpha_buoy + d2 c * alpha_shear + d3 c * alpha_buoy * alpha_shear
  + d4 c * alpha_buoy ^ 2 + d5 c * alpha_shear ^ 2.
Definition eval_funcs (c : coeffs) (alpha_buoy alpha_shear : R) : R * R :=
  ((n0 c + n1 c * alpha_buoy + n2 c * alpha_shear) / eval_den c alpha_buoy alpha_shear,
   (nb0 c + nb1 c * alpha_buoy + nb2 c * alpha_shear) / eval_den c alpha_buoy alpha_shear).

(** compute_alpha_shear_steady, analytical branch, 169-175.  The numerical branch
    (156-167) calls an external minimiser and is represented by its result where
    it is used. *)
Definition steady_a (c : coeffs) (ri : R) : R :=
  - d5 c + n2 c - (d3 c - n1 c + nb2 c) * ri - (d4 c + nb1 c) * ri ^ 2.
Definition steady_b (c : coeffs) (ri : R) : R := - d2 c + n0 c - (d1 c + nb0 c) * ri.
Definition steady_c (c : coeffs) : R := - d0 c.
Definition compute_alpha_shear_steady (c : coeffs) (ri : R) : R :=
  (- steady_b c ri + sqrt (steady_b c ri ^ 2 - 4 * steady_a c ri * steady_c c))
  / 2 / steady_a c ri.

(** compute_c3_minus, 179-206; [a_shear] is the result of the numerical solution *)
Definition c3_minus_of (c : coeffs) (a_shear c1 c2 ri : R) : R :=
  let s := eval_funcs c (ri * a_shear) a_shear in c2 - (c2 - c1) * fst s / snd s / ri.
(** the quantity whose absolute value is asserted to be below 1e-5, 203-204 *)
Definition c3_minus_err (c : coeffs) (a_shear c1 c2 ri : R) : R :=
  let s := eval_funcs c (ri * a_shear) a_shear in
  fst s / snd s * (c2 - c1) / (c2 - c3_minus_of c a_shear c1 c2 ri) - ri.

(** compute_cmu0, analytical branch, 218-225; x ** 0.25 as the square root of the
    square root *)
Definition cmu0_alpha_shear (c : coeffs) : R :=
  let a := d5 c - n2 c in let b := d2 c - n0 c in
  (- b - sqrt (b ^ 2 - 4 * a * d0 c)) / 2 / a.
Definition compute_cmu0 (c : coeffs) : R :=
  sqrt (sqrt (fst (eval_funcs c 0 (cmu0_alpha_shear c)))).

(** compute_kappa 239-248, compute_sigma_psi 250-259, compute_length_clim 261-274 *)
Definition compute_kappa (sigma_psi cmu0 n c1 c2 : R) : R :=
  cmu0 / Rabs n * sqrt (sigma_psi * (c2 - c1)).
Definition compute_sigma_psi (kappa cmu0 n c1 c2 : R) : R :=
  (n * kappa) ^ 2 / (cmu0 ^ 2 * (c2 - c1)).
Definition compute_length_clim (c : coeffs) (cmu0 ri : R) : R :=
  cmu0 ^ 3 * sqrt (ri * compute_alpha_shear_steady c ri / 2).

(** get_alpha_buoy_min, 276-286 *)
Definition get_alpha_buoy_min (c : coeffs) : R :=
  0.5 * (sqrt ((d1 c + nb0 c) ^ 2 - 4 * d0 c * (d4 c + nb1 c)) - (d1 c + nb0 c))
  / (d4 c + nb1 c).
(** get_alpha_shear_max, 288-304 *)
Definition get_alpha_shear_max (c : coeffs) (alpha_buoy : R) : R :=
  (d0 c * n0 c + (d0 c * n1 c + d1 c * n0 c) * alpha_buoy
   + (d1 c * n1 c + d4 c * n0 c) * alpha_buoy ^ 2 + d4 c * n1 c * alpha_buoy ^ 3)
  / (d2 c * n0 c + (d2 c * n1 c + d3 c * n0 c) * alpha_buoy + d3 c * n1 c * alpha_buoy ^ 2).
(** get_alpha_buoy_smooth_min, 306-314 *)
Definition get_alpha_buoy_smooth_min (c : coeffs) (l : limits) (alpha_buoy : R) : R :=
  alpha_buoy - (alpha_buoy - alpha_buoy_crit l) ^ 2
               / (alpha_buoy + get_alpha_buoy_min c - 2 * alpha_buoy_crit l).

(** evaluate, 331-360, in three steps *)
Definition limit_buoy (c : coeffs) (l : limits) (alpha_buoy : R) : R :=
  if lim_alpha_buoy l then
    if smooth_alpha_buoy_lim l then
      if Rlt_dec alpha_buoy (alpha_buoy_crit l)
      then get_alpha_buoy_smooth_min c l alpha_buoy else alpha_buoy
    else Rmax alpha_buoy (get_alpha_buoy_min c)
  else alpha_buoy.
Definition limit_shear (c : coeffs) (l : limits) (alpha_buoy alpha_shear : R) : R :=
  if lim_alpha_shear l then Rmin alpha_shear (get_alpha_shear_max c alpha_buoy)
  else alpha_shear.
Definition limited (c : coeffs) (l : limits) (shear2 buoy2 k eps : R) : R * R :=
  let f := compute_normalized_frequencies shear2 buoy2 k eps in
  let ab := limit_buoy c l (fst f) in (ab, limit_shear c l ab (snd f)).
Definition evaluate (c : coeffs) (l : limits) (shear2 buoy2 k eps : R) : R * R :=
  let f := limited c l shear2 buoy2 k eps in eval_funcs c (fst f) (snd f).

(** GOTMStabilityFunctionBase.__init__, 442-476, from cc1..cc6, cb1..cb5, cbb *)
Record gotm_ab := mkAB { ga1 : R; ga2 : R; ga3 : R; ga5 : R;
                         gab1 : R; gab2 : R; gab3 : R; gab5 : R; gnn : R; gnb : R }.
Definition gotm_params (cc1 cc2 cc3 cc4 cc6 cb1 cb2 cb3 cb4 cb5 cbb : R) : gotm_ab :=
  mkAB (2 / 3 - 0.5 * cc2) (1 - 0.5 * cc3) (1 - 0.5 * cc4) (0.5 - 0.5 * cc6)
       (1 - cb2) (1 - cb3) (2 * (1 - cb4)) (2 * cbb * (1 - cb5)) (0.5 * cc1) cb1.
Definition gotm_coeffs (p : gotm_ab) : coeffs :=
  let a1 := ga1 p in let a2 := ga2 p in let a3 := ga3 p in let a5 := ga5 p in
  let ab1 := gab1 p in let ab2 := gab2 p in let ab3 := gab3 p in let ab5 := gab5 p in
  let nn := gnn p in let nb := gnb p in
  mkC (36 * nn ^ 3 * nb ^ 2)
      (84 * a5 * ab3 * nn ^ 2 * nb + 36 * ab5 * nn ^ 3 * nb)
      (9 * (ab2 ^ 2 - ab1 ^ 2) * nn ^ 3 - 12 * (a2 ^ 2 - 3 * a3 ^ 2) * nn * nb ^ 2)
      (12 * a5 * ab3 * (a2 * ab1 - 3 * a3 * ab2) * nn
       + 12 * a5 * ab3 * (a3 ^ 2 - a2 ^ 2) * nb
       + 12 * ab5 * (3 * a3 ^ 2 - a2 ^ 2) * nn * nb)
      (48 * a5 ^ 2 * ab3 ^ 2 * nn + 36 * a5 * ab3 * ab5 * nn ^ 2)
      (3 * (a2 ^ 2 - 3 * a3 ^ 2) * (ab1 ^ 2 - ab2 ^ 2) * nn)
      (36 * a1 * nn ^ 2 * nb ^ 2)
      (- 12 * a5 * ab3 * (ab1 + ab2) * nn ^ 2
       + 8 * a5 * ab3 * (6 * a1 - a2 - 3 * a3) * nn * nb
       + 36 * a1 * ab5 * nn ^ 2 * nb)
      (9 * a1 * (ab2 ^ 2 - ab1 ^ 2) * nn ^ 2)
      (12 * ab3 * nn ^ 3 * nb)
      (12 * a5 * ab3 ^ 2 * nn ^ 2)
      (9 * a1 * ab3 * (ab1 - ab2) * nn ^ 2
       + (6 * a1 * (a2 - 3 * a3) - 4 * (a2 ^ 2 - 3 * a3 ^ 2)) * ab3 * nn * nb).

(** the parameters l1..l8 of the Canuto and Cheng base classes *)
Record lambdas := mkLam { l1 : R; l2 : R; l3 : R; l4 : R; l5 : R; l6 : R; l7 : R; l8 : R }.
(** s0..s6 and dd0..dd5 *)
Record raw := mkRaw { s0 : R; s1 : R; s2 : R; s4 : R; s5 : R; s6 : R;
                      dd0 : R; dd1 : R; dd2 : R; dd3 : R; dd4 : R; dd5 : R }.
(** CanutoStabilityFunctionBase.__init__, 538-550 *)
Definition canuto_raw (p : lambdas) : raw :=
  let l1 := l1 p in let l2 := l2 p in let l3 := l3 p in let l4 := l4 p in
  let l5 := l5 p in let l6 := l6 p in let l7 := l7 p in let l8 := l8 p in
  mkRaw (1.5 * l1 * l5 ^ 2)
        (- l4 * (l6 + l7) + 2 * l4 * l5 * (l1 - l2 / 3 - l3) + 1.5 * l1 * l5 * l8)
        (- 3 / 8 * l1 * (l6 ^ 2 - l7 ^ 2))
        (2 * l5) (2 * l4)
        (2 / 3 * l5 * (3 * l3 ^ 2 - l2 ^ 2) - 0.5 * l5 * l1 * (3 * l3 - l2)
         + 0.75 * l1 * (l6 - l7))
        (3 * l5 ^ 2) (l5 * (7 * l4 + 3 * l8))
        (l5 ^ 2 * (3 * l3 ^ 2 - l2 ^ 2) - 0.75 * (l6 ^ 2 - l7 ^ 2))
        (l4 * (4 * l4 + 3 * l8))
        (l4 * (l2 * l6 - 3 * l3 * l7 - l5 * (l2 ^ 2 - l3 ^ 2))
         + l5 * l8 * (3 * l3 ^ 2 - l2 ^ 2))
        (0.25 * (l2 ^ 2 - 3 * l3 ^ 2) * (l6 ^ 2 - l7 ^ 2)).
(** ChengStabilityFunctionBase.__init__, 647-659; l5**-2 as division by l5^2 *)
Definition cheng_raw (p : lambdas) : raw :=
  let l1 := l1 p in let l2 := l2 p in let l3 := l3 p in let l4 := l4 p in
  let l5 := l5 p in let l6 := l6 p in let l7 := l7 p in let l8 := l8 p in
  mkRaw (0.5 * l1)
        (- 1 / 3 * l4 / l5 ^ 2 * (l6 + l7) + 2 / 3 * l4 / l5 * (l1 - 1 / 3 * l2 - l3)
         + 0.5 * l1 / l5 * l8)
        (1 / 8 * l1 / l5 ^ 2 * (l6 ^ 2 - l7 ^ 2))
        (2 / 3 / l5) (2 / 3 * l4 / l5 ^ 2)
        (2 / 3 / l5 * (l3 ^ 2 - 1 / 3 * l2 ^ 2) - 0.5 * l1 / l5 * (l3 - 1 / 3 * l2))
        1 ((7 / 3 * l4 + l8) / l5)
        ((l3 ^ 2 - 1 / 3 * l2 ^ 2) - 0.25 / l5 ^ 2 * (l6 ^ 2 - l7 ^ 2))
        (1 / 3 * l4 / l5 ^ 2 * (4 * l4 + 3 * l8))
        (1 / 3 * l4 / l5 ^ 2 * (l2 * l6 - 3 * l3 * l7 - l5 * (l2 ^ 2 - l3 ^ 2))
         + l8 * (l3 ^ 2 - 1 / 3 * l2 ^ 2) / l5)
        (- 1 / 4 / l5 ^ 2 * (l3 ^ 2 - 1 / 3 * l2 ^ 2) * (l6 ^ 2 - l7 ^ 2)).
(** unit conversion, 552-567 and 661-676 *)
Definition alpha_scalar : R := 4.
Definition cu_scalar : R := 2.
Definition convert (r : raw) : coeffs :=
  mkC (dd0 r) (alpha_scalar * dd1 r) (alpha_scalar * dd2 r) (alpha_scalar ^ 2 * dd4 r)
      (alpha_scalar ^ 2 * dd3 r) (alpha_scalar ^ 2 * dd5 r)
      (cu_scalar * s0 r) (cu_scalar * alpha_scalar * s1 r) (cu_scalar * alpha_scalar * s2 r)
      (cu_scalar * s4 r) (cu_scalar * alpha_scalar * s5 r) (cu_scalar * alpha_scalar * s6 r).
Definition canuto_coeffs (p : lambdas) : coeffs := convert (canuto_raw p).
Definition cheng_coeffs (p : lambdas) : coeffs := convert (cheng_raw p).
(** eval_funcs_new, 569-585 and 678-694 *)
Definition eval_funcs_new (r : raw) (alpha_buoy alpha_shear : R) : R * R :=
  let tN2 := alpha_scalar * alpha_buoy in let tS2 := alpha_scalar * alpha_shear in
  let dsm := s0 r + s1 r * tN2 + s2 r * tS2 in
  let dsh := s4 r + s5 r * tN2 + s6 r * tS2 in
  let den := dd0 r + dd1 r * tN2 + dd2 r * tS2 + dd3 r * tN2 ^ 2 + dd4 r * tN2 * tS2
             + dd5 r * tS2 ^ 2 in
  (cu_scalar * dsm / den, cu_scalar * dsh / den).

(** the shipped parameter sets, 697-823 *)
Definition canutoA : lambdas := mkLam 0.107 0.0032 0.0864 0.12 11.9 0.4 0 0.48.
Definition canutoB : lambdas := mkLam 0.127 0.00336 0.0906 0.101 11.2 0.4 0 0.318.
Definition cheng : lambdas := mkLam 0.107 0.0032 0.0864 0.1 11.04 0.786 0.643 0.547.
Definition gotm_canutoA := gotm_params 5 0.8 1.968 1.136 0.4 5.95 0.6 1 0 0.3333 0.72.
Definition gotm_canutoB := gotm_params 5 0.6983 1.9664 1.094 0.495 5.6 0.6 1 0 0.3333 0.477.
Definition gotm_kantha_clayson := gotm_params 6 0.32 0 0 0 3.728 0.7 0.7 0 0.2 0.6102.
Definition gotm_cheng := gotm_params 5 0.7983 1.968 1.136 0.5 5.52 0.2134 0.357 0 0.3333 0.82.
