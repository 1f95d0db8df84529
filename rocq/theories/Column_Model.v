(** Model of the column operations of /repo/thetis/utility3d.py:
    ExpandFunctionTo3d (471-560), SubFunctionExtractor (563-708),
    get_facet_mask (/repo/thetis/utility.py:318-346) and VerticalIntegrator
    (130-210).

    A Function is a table of values per global node and component. The mesh is
    given by its node maps: [map2 c d] is the global node of local node [d] of
    2D cell [c]; [map3 c k j] is that of local node [j] of the 3D cell in layer
    [k] (0 = bottom) above [c]. A par_loop visits cells in some order, gathers,
    runs the kernel on local arrays and scatters. HDiv scaling (a further linear
    solve for Raviart-Thomas type spaces) is not modelled. *)
From Coq Require Import Reals List Lia Lra Arith Bool String.
Import ListNotations.
Open Scope list_scope.
Open Scope R_scope.

(** Nodal data: global node -> component -> value. *)
Definition data := nat -> nat -> R.

(** A C array of doubles. *)
Definition buffer := nat -> R.

Definition store (b : buffer) (i : nat) (x : R) : buffer :=
  fun j => if Nat.eqb j i then x else b j.

(** [for (int i = 0; i < n; i++) body]. *)
Definition for_loop {S} (n : nat) (body : nat -> S -> S) (s : S) : S :=
  fold_left (fun s i => body i s) (seq 0 n) s.

(** get_facet_mask, utility.py:318-346. [nv]: nodes of the vertical element;
    the extruded dimension is the inner loop and the two end points of the
    interval come first. *)
Definition facet_mask (nh nv : nat) (bottom : bool) : list nat :=
  map (fun d => d * nv + (if bottom then 0 else 1))%nat (seq 0 nh).

Definition idx_at (idx : list nat) (d : nat) : nat := nth d idx 0%nat.

(** The kernel of ExpandFunctionTo3d, utility3d.py:522-532. *)
Definition expand_kernel (nodes dim2 dim3 nv : nat) (idx : list nat)
  (func2d : buffer) (func : buffer) : buffer :=
  for_loop nodes (fun d =>
    for_loop dim2 (fun c =>
      for_loop nv (fun e func =>
        store func (dim3 * (idx_at idx d + e) + c) (func2d (dim2 * d + c)%nat)))) func.

(** The kernel of SubFunctionExtractor for a facet, utility3d.py:674-684. *)
Definition extract_kernel (nodes dim2 dim3 : nat) (idx : list nat)
  (func3d : buffer) (func : buffer) : buffer :=
  for_loop nodes (fun d =>
    for_loop dim2 (fun c func =>
      store func (dim2 * d + c) (func3d (dim3 * idx_at idx d + c)%nat))) func.

(** The kernel for the average, utility3d.py:660-672. *)
Definition average_kernel (nodes dim2 dim3 : nat) (idx : list nat)
  (func3d : buffer) (func : buffer) : buffer :=
  for_loop nodes (fun d =>
    for_loop dim2 (fun c func =>
      store func (dim2 * d + c)
        (0.5 * (func3d (dim3 * idx_at idx d + c)%nat
                + func3d (dim3 * idx_at idx (d + nodes) + c)%nat)))) func.

(** Gather (op2.READ): the local array of a cell with the given nodes. *)
Definition gather (dim : nat) (nodes : nat -> nat) (x : data) : buffer :=
  fun j => x (nodes (j / dim)%nat) (j mod dim)%nat.

(** Scatter (op2.WRITE): every local entry is written back. *)
Definition scatter (dim arity : nat) (nodes : nat -> nat) (b : buffer)
  (x : data) : data :=
  for_loop arity (fun j =>
    for_loop dim (fun c x =>
      fun n c' => if (Nat.eqb n (nodes j) && Nat.eqb c' c)%bool
                  then b (dim * j + c)%nat else x n c')) x.

(** The iteration domain: utility3d.py:514, 646-649. *)
Inductive domain := ALL | ON_TOP | ON_BOTTOM.

Definition layers_of (dm : domain) (n_layers : nat) : list nat :=
  match dm with
  | ALL => seq 0 n_layers
  | ON_TOP => [(n_layers - 1)%nat]
  | ON_BOTTOM => [0%nat]
  end.

Section Mesh.
(** Number of 2D cells and layers, nodes per horizontal and vertical element,
    block sizes of the two spaces, node maps. *)
Variables (cells n_layers nh nv dim2 dim3 : nat).
Variable map2 : nat -> nat -> nat.
Variable map3 : nat -> nat -> nat -> nat.
(** Initial content of the local output array. *)
Variable junk : buffer.

Definition visits (dm : domain) : list (nat * nat) :=
  flat_map (fun c => map (fun k => (c, k)) (layers_of dm n_layers)) (seq 0 cells).

(** ExpandFunctionTo3d.solve, utility3d.py:547-560. *)
Definition expand_cell (x2 : data) (ck : nat * nat) (x3 : data) : data :=
  scatter dim3 (nh * nv) (map3 (fst ck) (snd ck))
    (expand_kernel nh dim2 dim3 nv (facet_mask nh nv true)
       (gather dim2 (map2 (fst ck)) x2) junk) x3.

Definition expand (x2 x3 : data) : data :=
  fold_left (fun x ck => expand_cell x2 ck x) (visits ALL) x3.

(** SubFunctionExtractor.__init__ / solve, utility3d.py:605-708. *)
Inductive facet := Top | Bottom | Average.

Definition extract_nodes (f : facet) : list nat :=
  match f with
  | Average => facet_mask nh nv true ++ facet_mask nh nv false
  | Top => facet_mask nh nv false
  | Bottom => facet_mask nh nv true
  end.

Definition extract_cell (f : facet) (x3 : data) (ck : nat * nat) (x2 : data)
  : data :=
  let local := gather dim3 (map3 (fst ck) (snd ck)) x3 in
  let k := match f with
           | Average => average_kernel nh dim2 dim3 (extract_nodes f) local junk
           | _ => extract_kernel nh dim2 dim3 (extract_nodes f) local junk
           end in
  scatter dim2 nh (map2 (fst ck)) k x2.

Definition extract (dm : domain) (f : facet) (x3 x2 : data) : data :=
  fold_left (fun x ck => extract_cell f x3 ck x) (visits dm) x2.
End Mesh.

(** Arguments of the constructor, utility3d.py:605-655: boundary and elem_facet
    are strings. [elem_facet=None] means the boundary; an unknown facet fails an
    assertion; an unknown boundary leaves iter_domain unset, so solve raises. *)
Inductive extractor_error := FacetAssertion | NoIterDomain.

Definition facet_of (s : string) : option facet :=
  if String.eqb s "top" then Some Top
  else if String.eqb s "bottom" then Some Bottom
  else if String.eqb s "average" then Some Average
  else None.

Definition extractor (boundary : string) (elem_facet : option string)
  : (domain * facet) + extractor_error :=
  match facet_of (match elem_facet with None => boundary | Some f => f end) with
  | None => inr FacetAssertion
  | Some f =>
      if String.eqb boundary "top" then inl (ON_TOP, f)
      else if String.eqb boundary "bottom" then inl (ON_BOTTOM, f)
      else inr NoIterDomain
  end.

(* ------------------------------------------------------------------ *)
(** * VerticalIntegrator *)

(** The weak form of VerticalIntegrator.__init__, utility3d.py:130-205, tested
    with functions that are constant in one layer of a column and zero in the
    others (so Dx(phi, 2) = 0). Layers are numbered from the bottom; [y k] is
    the value of the solution in layer [k] at the facet where the upwind value
    is taken (its top facet when integrating upwards, its bottom facet when
    integrating downwards), [s k] the integral of the source over layer [k];
    both are weighted with the horizontal test function. [n] layers. *)

(** Bottom to top: left-hand side (a) for the layer-[k] test function: the top
    facet of the layer (interior facet: up_value = tri('+'), the lower cell;
    surface: mass_bnd_term) minus its bottom facet (interior: the value from
    the layer below; the bottom facet has no term). utility3d.py:178-199. *)
Definition lhs_up (y : nat -> R) (k : nat) : R :=
  y k - match k with O => 0 | S k' => y k' end.

(** Right-hand side: source and [bnd_term = normal[2]*bnd_value*phi*ds_bottom]
    with normal[2] = -1, utility3d.py:171-172, 204. *)
Definition rhs_up (bnd : R) (s : nat -> R) (k : nat) : R :=
  s k + match k with O => (-1) * bnd | S _ => 0 end.

(** Top to bottom: up_value = tri('-'), the upper cell, utility3d.py:175-176,
    185-189. *)
Definition lhs_down (n : nat) (y : nat -> R) (k : nat) : R :=
  (if Nat.eqb (S k) n then 0 else y (S k)) - y k.

Definition rhs_down (n : nat) (bnd : R) (s : nat -> R) (k : nat) : R :=
  s k + (if Nat.eqb (S k) n then 1 * bnd else 0).

Fixpoint layer_sum (s : nat -> R) (n : nat) : R :=
  match n with O => 0 | S n' => layer_sum s n' + s n' end.
