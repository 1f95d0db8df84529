(** Model of thetis/limiter.py: the vertex based slope limiter for linear
    discontinuous fields.

    Not modelled: the function space check (10-45) and the linear solver that
    divides the cell integrals by the cell volumes (79-102); the mean of a cell is
    given by nodal weights instead ([m_weights], integrals of the nodal basis
    functions over the cell divided by its volume).  The parent class
    VertexBasedLimiter belongs to Firedrake; the two kernels of it that
    [compute_bounds] and [apply] call are modelled from its documentation
    (min/max of the adjacent cell means at every vertex; one correction factor
    per cell). *)
From Verif Require Import Num Interp_Model.
Open Scope Qc_scope.

(** A mesh: the vertex of every local node of every cell, the weights of the cell
    means, the nodes of every local facet ([local_facet_idx], 119), the exterior
    facets as (cell, local facet number), and for extruded meshes the cells of
    the bottom and the top layer with the local nodes of their bottom and top
    facet (149-150). *)
Record lmesh := mkMesh {
  m_cells : list (list nat);
  m_weights : list (list Qc);
  m_local_facets : list (list nat);
  m_exterior : list (nat * nat);
  m_bottom : list nat; m_bottom_nodes : list nat;
  m_top : list nat; m_top_nodes : list nat;
  m_is_2d : bool }.

(** a discontinuous field: nodal values cell by cell *)
Definition dgfield := list (list Qc).

Definition cell_nodes (m : lmesh) (c : nat) : list nat := nth c (m_cells m) [].
Definition cell_values (q : dgfield) (c : nat) : list Qc := nth c q [].
(** [_update_centroids], limiter.py:94-102 *)
Definition centroid (m : lmesh) (q : dgfield) (c : nat) : Qc := dot (cell_values q c) (nth c (m_weights m) []).

(** vertex fields; [max_field], [min_field] *)
Definition vfield := nat -> Qc.
Definition vset (f : vfield) (v : nat) (x : Qc) : vfield := fun w => if Nat.eqb w v then x else f w.
Definition relax_max (f : vfield) (vs : list nat) (x : Qc) : vfield := fold_left (fun f v => vset f v (qmax (f v) x)) vs f.
Definition relax_min (f : vfield) (vs : list nat) (x : Qc) : vfield := fold_left (fun f v => vset f v (qmin (f v) x)) vs f.
Definition relax (b : vfield * vfield) (vs : list nat) (x : Qc) : vfield * vfield :=
  (relax_max (fst b) vs x, relax_min (snd b) vs x).

(** VertexBasedLimiter.compute_bounds (Firedrake): start from -1e10 and 1e10,
    then a loop over the cells *)
Definition big : Qc := qz 10000000000.
Definition base_bounds (m : lmesh) (q : dgfield) : vfield * vfield :=
  fold_left (fun b c => relax b (cell_nodes m c) (centroid m q c)) (seq 0 (length (m_cells m)))
            ((fun _ => - big), (fun _ => big)).

(** the kernel of 124-138 and 153-163: arithmetic mean of the facet nodes *)
Definition face_mean (q : dgfield) (c : nat) (idx : list nat) : Qc :=
  qsum (map (fun i => nth i (cell_values q c) 0) idx) / qn (length idx).
Definition facet_kernel (m : lmesh) (q : dgfield) (b : vfield * vfield) (c : nat) (idx : list nat) : vfield * vfield :=
  relax b (map (fun i => nth i (cell_nodes m c) 0%nat) idx) (face_mean q c idx).

(** compute_bounds, limiter.py:105-179 *)
Definition compute_bounds (m : lmesh) (q : dgfield) : vfield * vfield :=
  let b := base_bounds m q in
  let b := fold_left (fun b cf => facet_kernel m q b (fst cf) (nth (snd cf) (m_local_facets m) [])) (m_exterior m) b in
  if m_is_2d m then b
  else
    let b := fold_left (fun b c => facet_kernel m q b c (m_bottom_nodes m)) (m_bottom m) b in
    fold_left (fun b c => facet_kernel m q b c (m_top_nodes m)) (m_top m) b.

(** VertexBasedLimiter.apply_limiter (Firedrake): the smallest correction factor
    over the nodes of the cell *)
Definition node_alpha (alpha qavg q qmx qmn : Qc) : Qc :=
  if Qcltb qavg q then qmin alpha (qmin 1 ((qmx - qavg) / (q - qavg)))
  else if Qcltb q qavg then qmin alpha (qmin 1 ((qavg - qmn) / (qavg - q)))
  else alpha.
Definition cell_alpha (b : vfield * vfield) (vs : list nat) (qs : list Qc) (qavg : Qc) : Qc :=
  fold_left (fun a p => node_alpha a qavg (snd p) (fst b (fst p)) (snd b (fst p))) (combine vs qs) 1.
Definition limit_cell (m : lmesh) (q : dgfield) (b : vfield * vfield) (c : nat) : list Qc :=
  let qavg := centroid m q c in
  let a := cell_alpha b (cell_nodes m c) (cell_values q c) qavg in
  map (fun x => qavg + a * (x - qavg)) (cell_values q c).

(** apply for a scalar field, limiter.py:197-198 *)
Definition apply_limiter (m : lmesh) (q : dgfield) : dgfield :=
  map (limit_cell m q (compute_bounds m q)) (seq 0 (length (m_cells m))).

(** apply for a vector field, limiter.py:189-196: component by component, the
    field stored as one array of component values per node *)
Definition component (i : nat) (q : list (list (list Qc))) : dgfield := map (map (fun x => nth i x 0)) q.
Fixpoint set_comp (i : nat) (y : Qc) (x : list Qc) : list Qc :=
  match x, i with
  | [], _ => []
  | _ :: r, O => y :: r
  | a :: r, S k => a :: set_comp k y r
  end.
Definition set_component (i : nat) (q : list (list (list Qc))) (s : dgfield) : list (list (list Qc)) :=
  map (fun p => map (fun r => set_comp i (snd r) (fst r)) (combine (fst p) (snd p))) (combine q s).
Definition apply_vector (m : lmesh) (dim : nat) (q : list (list (list Qc))) : list (list (list Qc)) :=
  fold_left (fun q i => set_component i q (apply_limiter m (component i q))) (seq 0 dim) q.
