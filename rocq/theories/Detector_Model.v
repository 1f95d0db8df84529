(** Model of select_and_move_detectors, thetis/utility.py:863-931.

    Coordinates are real numbers (the code uses floating point). A location is a
    list of coordinates. The mesh enters through [inside] (whether the point
    evaluation v(location) succeeds, the same answer on every process) and, for
    every process, the list of its cell centres in its own numbering. *)
From Coq Require Import Reals List Bool String.
Import ListNotations.
Open Scope R_scope.

Definition loc := list R.

Inductive derr := IndexErr | ValueErr.
Inductive dres (A : Type) := DOk (a : A) | DErr (e : derr).
Arguments DOk {A}. Arguments DErr {A}.
Definition dbind {A B} (m : dres A) (f : A -> dres B) : dres B :=
  match m with DOk a => f a | DErr e => DErr e end.

Fixpoint zip {A B} (a : list A) (b : list B) : list (A * B) :=
  match a, b with
  | x :: a', y :: b' => (x, y) :: zip a' b'
  | _, _ => []
  end.

(** min_lexsort, utility.py:890-898: compares entry by entry. *)
Fixpoint min_lex_pairs (l : list (R * R)) (x y : list R) : list R :=
  match l with
  | [] => x
  | (a, b) :: l' =>
      if Rlt_dec a b then x else if Rlt_dec b a then y else min_lex_pairs l' x y
  end.
Definition min_lexsort (x y : list R) : list R := min_lex_pairs (zip x y) x y.

(** The squared distance dot(xy - loc, xy - loc), utility.py:903. *)
Definition sqdist (c p : loc) : R :=
  fold_right Rplus 0 (map (fun ab => (fst ab - snd ab) * (fst ab - snd ab)) (zip c p)).

(** numpy's argmin returns the first smallest entry, utility.py:904; it raises
    ValueError for an empty array. Here: the cell centre found, with its value. *)
Fixpoint argmin (d : loc -> R) (l : list loc) : option (R * loc) :=
  match l with
  | [] => None
  | c :: l' =>
      match argmin d l' with
      | None => Some (d c, c)
      | Some (v, c') => if Rlt_dec v (d c) then Some (v, c') else Some (d c, c)
      end
  end.

(** [local_dist] + local_loc on one process, utility.py:905-909. *)
Definition local_best (p : loc) (cells : list loc) : option (list R) :=
  match argmin (fun c => sqdist c p) cells with
  | None => None
  | Some (v, c) => Some (sqrt v :: c)
  end.

(** allreduce with a user operation that is not declared commutative: MPI may
    bracket the operands any way it likes but keeps them in rank order. *)
Inductive tree (A : Type) := Leaf (a : A) | Node (l r : tree A).
Arguments Leaf {A}. Arguments Node {A}.
Fixpoint leaves {A} (t : tree A) : list A :=
  match t with Leaf a => [a] | Node l r => leaves l ++ leaves r end.
Fixpoint reduce (t : tree (list R)) : list R :=
  match t with
  | Leaf a => a
  | Node l r => min_lexsort (reduce l) (reduce r)
  end.

Fixpoint tmap {A B} (f : A -> option B) (t : tree A) : option (tree B) :=
  match t with
  | Leaf a => match f a with Some b => Some (Leaf b) | None => None end
  | Node l r =>
      match tmap f l, tmap f r with Some l', Some r' => Some (Node l' r') | _, _ => None end
  end.

(** The mesh: one leaf per process (its cell centres), in rank order. *)
Record dmesh := mk_dmesh { dm_inside : loc -> bool; dm_cells : tree (list loc) }.

(** move_to_nearest_cell_center, utility.py:901-911. *)
Definition move_to_nearest (M : dmesh) (p : loc) : dres (R * loc) :=
  match tmap (local_best p) (dm_cells M) with
  | None => DErr ValueErr
  | Some t =>
      match reduce t with
      | d :: l => DOk (d, l)
      | [] => DErr IndexErr
      end
  end.

(** The loop, utility.py:919-927. *)
Fixpoint select_loop {N} (M : dmesh) (maxd : R) (l : list (loc * N)) : dres (list (loc * N)) :=
  match l with
  | [] => DOk []
  | (p, n) :: l' =>
      if dm_inside M p then dbind (select_loop M maxd l') (fun r => DOk ((p, n) :: r))
      else
        dbind (move_to_nearest M p) (fun dl =>
        if Rgt_dec (fst dl) maxd then select_loop M maxd l'
        else dbind (select_loop M maxd l') (fun r => DOk ((snd dl, n) :: r)))
  end.

(** select_and_move_detectors, utility.py:864-933: [names = None] pairs every
    location with None; the constant loc_const is built from the first location. *)
Definition select_and_move (M : dmesh) (locs : list loc) (names : option (list string)) (maxd : R)
  : dres (list loc * option (list string)) :=
  match locs with
  | [] => DErr IndexErr
  | _ =>
      match names with
      | None =>
          dbind (select_loop M maxd (zip locs (map (fun _ => tt) locs))) (fun r =>
          DOk (map fst r, None))
      | Some ns =>
          dbind (select_loop M maxd (zip locs ns)) (fun r => DOk (map fst r, Some (map snd r)))
      end
  end.
