(** Vocabulary for the slope limiter (C36). *)
From Verif Require Import Num Interp_Model Limiter_Model.
Open Scope Qc_scope.

(** number of cells, node [i] of cell [c] sits at vertex [v] *)
Definition node_at (m : lmesh) (c i v : nat) : Prop := nth_error (m_cells m) c = Some (nth c (m_cells m) []) /\ nth_error (nth c (m_cells m) []) i = Some v.
Definition value_at (q : dgfield) (c i : nat) (x : Qc) : Prop := exists l, nth_error q c = Some l /\ nth_error l i = Some x.

(** the mesh tables and the field fit together; weights are those of a mean *)
Record fits (m : lmesh) (q : dgfield) : Prop := {
  fit_q : length q = length (m_cells m);
  fit_w : length (m_weights m) = length (m_cells m);
  fit_cell : forall c, (c < length (m_cells m))%nat ->
     length (nth c q []) = length (nth c (m_cells m) []) /\
     length (nth c (m_weights m) []) = length (nth c (m_cells m) []) /\
     (forall w, In w (nth c (m_weights m) []) -> 0 <= w) /\
     qsum (nth c (m_weights m) []) = 1;
  fit_ext : forall c f, In (c, f) (m_exterior m) -> (c < length (m_cells m))%nat /\ nth f (m_local_facets m) [] <> [] /\
     forall i, In i (nth f (m_local_facets m) []) -> (i < length (nth c (m_cells m) []))%nat;
  fit_bot : forall c, In c (m_bottom m) -> (c < length (m_cells m))%nat /\ m_bottom_nodes m <> [] /\
     forall i, In i (m_bottom_nodes m) -> (i < length (nth c (m_cells m) []))%nat;
  fit_top : forall c, In c (m_top m) -> (c < length (m_cells m))%nat /\ m_top_nodes m <> [] /\
     forall i, In i (m_top_nodes m) -> (i < length (nth c (m_cells m) []))%nat }.

(** mean of a cell, and of the nodes of a facet *)
Definition cell_mean (m : lmesh) (q : dgfield) (c : nat) : Qc := dot (nth c q []) (nth c (m_weights m) []).
Definition nodes_mean (l : list Qc) : Qc := qsum l / qn (length l).
Definition facet_values (q : dgfield) (c : nat) (idx : list nat) : list Qc := map (fun i => nth i (nth c q []) 0) idx.

(** the boundary facets that count: lateral ones, and in 3D bottom and top *)
Inductive boundary_facet (m : lmesh) : nat -> list nat -> Prop :=
| BF_ext c f : In (c, f) (m_exterior m) -> boundary_facet m c (nth f (m_local_facets m) [])
| BF_bottom c : m_is_2d m = false -> In c (m_bottom m) -> boundary_facet m c (m_bottom_nodes m)
| BF_top c : m_is_2d m = false -> In c (m_top m) -> boundary_facet m c (m_top_nodes m).

(** the values around vertex [v]: means of the cells and of the boundary facets
    that touch it *)
Inductive around (m : lmesh) (q : dgfield) (v : nat) : Qc -> Prop :=
| A_cell c : (c < length (m_cells m))%nat -> In v (nth c (m_cells m) []) -> around m q v (cell_mean m q c)
| A_facet c idx i : boundary_facet m c idx -> In i idx -> nth i (nth c (m_cells m) []) 0%nat = v ->
    around m q v (nodes_mean (facet_values q c idx)).

(** a field whose means are representable for the limiter's initial bounds *)
Definition within_big (m : lmesh) (q : dgfield) : Prop := forall v x, around m q v x -> - big <= x /\ x <= big.

(** admissible: every nodal value lies between two values around its vertex *)
Definition admissible (m : lmesh) (q : dgfield) : Prop :=
  forall c i v x, node_at m c i v -> value_at q c i x ->
  exists lo hi, around m q v lo /\ around m q v hi /\ lo <= x /\ x <= hi.
