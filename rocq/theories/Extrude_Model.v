(** Model of the vertical grid of the extruded mesh and of the moving (ALE)
    mesh:
    /repo/thetis/utility.py:350-420 (extrude_mesh_sigma),
    /repo/thetis/utility.py:583-617 (compute_elem_height),
    /repo/thetis/utility3d.py:711-870 (ALEMeshUpdater),
    /repo/thetis/coupled_timeintegrator.py:580-620 (mesh velocity of the two
    stages).

    One column (one 2D node) at a time: the kernels loop over the nodes of the
    2D element and treat them independently. Interfaces are numbered from the
    top (0) to the bottom (n_layers); ExtrudedMesh gives interface [i] the
    height 1 - i/n_layers. Numbers are real numbers. *)
From Coq Require Import Reals List Lia Lra Arith.
Import ListNotations.
Open Scope R_scope.
Open Scope list_scope.

(* ------------------------------------------------------------------ *)
(** * extrude_mesh_sigma *)

(** C [pow] for a non-negative base, utility.py:395. Not modelled: an infinite
    result (base 0 with a negative exponent); no theorem uses that case. *)
Definition cpow (x s : R) : R :=
  if Req_EM_T x 0 then (if Req_EM_T s 0 then 1 else 0) else Rpower x s.

(** sigma = 1 - old_z, utility.py:394. *)
Definition sigma (n_layers i : nat) : R := INR i / INR n_layers.

(** [layer = fmin(fmax(round(sigma*(n+1) - 1), 0), n)], utility.py:396, for
    sigma = i/n evaluated exactly: sigma*(n+1) - 1 = (i*(n+1) - n)/n, rounded
    half away from zero; a negative value rounds to something clipped to 0. *)
Definition layer_index (n i : nat) : nat :=
  Nat.min
    (if (i * (n + 1) <? n)%nat then 0
     else (2 * (i * (n + 1) - n) + n) / (2 * n))
    n.

(** min_depth_arr, utility.py:379-382: 1e22 overwritten by the given entries.
    None: more entries than n_layers + 1, IndexError. *)
Definition min_depth_arr (n : nat) (min_depth : list R) : option (nat -> R) :=
  if (n + 1 <? List.length min_depth)%nat then None
  else Some (fun i => nth i min_depth 1e22).

(** The new vertical coordinate of interface [i], utility.py:394-399. *)
Definition new_z (bath s_fact : R) (n : nat) (md : nat -> R) (i : nat) : R :=
  Rmax (- bath * cpow (sigma n i) s_fact) (- md (layer_index n i)).

(** The column, top to bottom. *)
Definition extrude_column (bath s_fact : R) (n : nat) (min_depth : list R)
  : option (list R) :=
  match min_depth_arr n min_depth with
  | None => None
  | Some md => Some (map (new_z bath s_fact n md) (seq 0 (n + 1)))
  end.

(* ------------------------------------------------------------------ *)
(** * ALEMeshUpdater *)

(** kernel_z_coord, utility3d.py:763-780. *)
Definition ale_z (eta bath z_ref : R) : R := eta * (z_ref + bath) / bath + z_ref.

(** kernel_w_mesh, utility3d.py:782-799. *)
Definition ale_w (w_surf bath z_ref : R) : R := w_surf * (z_ref + bath) / bath.

(** compute_mesh_velocity_finalize, default formulation,
    utility3d.py:839-846: w := old; w += -new; w *= -1/dt/c. *)
Definition default_w_surf (dt c elev_old elev_new : R) : R :=
  (elev_old + - elev_new) * (-1 / dt / c).

(** CoupledTwoStageRK.compute_mesh_velocity, coupled_timeintegrator.py:596-619. *)
Definition stage_w_surf (dt : R) (istage : nat) (e0 e1 current : R) : R :=
  match istage with
  | O => (current - e0) / dt
  | _ => (2 * current - e1 - e0) / dt
  end.

(** compute_elem_height, utility.py:583-617: the height of the layer between
    two consecutive interfaces. *)
Definition elem_height (z_top z_bot : R) : R := Rabs (z_top - z_bot).

Fixpoint elem_heights (z : list R) : list R :=
  match z with
  | a :: ((b :: _) as r) => elem_height a b :: elem_heights r
  | _ => []
  end.

(** ALEMeshUpdater state of one column: reference coordinates (initialize,
    utility3d.py:802-807) and current coordinates. *)
Record column := mk_column { col_ref : list R; col_z : list R; col_h : list R }.

Definition ale_initialize (z : list R) : column :=
  mk_column z z (elem_heights z).

(** update_mesh_coordinates, utility3d.py:861-885. *)
Definition ale_update (bath eta : R) (c : column) : column :=
  let z := map (ale_z eta bath) (col_ref c) in
  mk_column (col_ref c) z (elem_heights z).

(** Any number of mesh updates. *)
Definition ale_run (bath : R) (etas : list R) (c : column) : column :=
  fold_left (fun c e => ale_update bath e c) etas c.
