(** Specification vocabulary for histories of time steps. *)

From Coq Require Import Reals List String.
From Verif Require Import RK_Spec.
Import ListNotations.
Open Scope R_scope.

(** What the rest of the program does with an integrator: take a step from
    time t, or change the solution field in place (limiter, coupling). *)
Inductive op (V : Type) :=
| Advance (t : R)
| Change (g : V -> V).
Arguments Advance {V} t.
Arguments Change {V} g.

(** Composition of one-step maps and changes, in order *)
Inductive history {V E : Type} (step : R -> V * E -> V * E -> Prop) :
    list (op V) -> V * E -> V * E -> Prop :=
| history_nil : forall x, history step [] x x
| history_advance : forall t ops x y z,
    step t x y -> history step ops y z -> history step (Advance t :: ops) x z
| history_change : forall g ops v e z,
    history step ops (g v, e) z -> history step (Change g :: ops) (v, e) z.

(** one-step maps *)
Definition explicit_map {D Env : Type} n a b c (F : Env -> (D -> R) -> D -> R) dt
    (uf : option (R -> Env -> Env)) (t : R) (x y : (D -> R) * Env) : Prop :=
  explicit_step n a b F dt (fun i => forced uf (abscissae t dt c (S i)) (snd x)) (fst x) (fst y) /\
  snd y = forced uf (abscissae t dt c n) (snd x).

Definition implicit_map {D Env : Type} n a b c (F : Env -> (D -> R) -> D -> R) dt
    (uf : option (R -> Env -> Env)) (t : R) (x y : (D -> R) * Env) : Prop :=
  implicit_step n a b F dt (fun i => forced uf (abscissae t dt c (S i)) (snd x)) (fst x) (fst y) /\
  snd y = forced uf (abscissae t dt c n) (snd x).

Definition imex_map {D Env : Type} n aI bI cI aE bE cE
    (GI : Env -> (D -> R) -> (D -> R) -> D -> R) (FE : Env -> (D -> R) -> D -> R) dt
    (uf : option (R -> Env -> Env)) (t : R) (x y : (D -> R) * Env) : Prop :=
  imex_step n aI bI aE bE GI FE dt
    (fun i => forced uf (abscissae2 t dt cI cE i ++ [t + cI i * dt])%list (snd x))
    (fun i => forced uf (abscissae2 t dt cI cE (S i)) (snd x)) (fst x) (fst y) /\
  snd y = forced uf (abscissae2 t dt cI cE n) (snd x).

(** theta scheme for M(u') - M(u) = dt (theta R_new(u') + (1 - theta) R_old(u)) *)
Definition theta_step {D : Type} (mass Rnew Rold : (D -> R) -> D -> R) (dt theta : R) (u u' : D -> R) : Prop :=
  forall x, mass u' x - mass u x = dt * (theta * Rnew u' x + (1 - theta) * Rold u x).

(** ** Coefficients between steps *)
Inductive fop (C : Type) :=
| Assign (f : C -> C)       (** the user changes coefficient values *)
| Step (t : R).             (** a time step is taken *)
Arguments Assign {C} f.
Arguments Step {C} t.

(** current values, and values at the end of the last step (or at
    initialisation); a step first applies the forcing callback *)
Definition track {C : Type} (forcing : R -> C -> C) (ops : list (fop C)) (c0 : C) : C * C :=
  fold_left (fun '(cur, last) o =>
    match o with
    | Assign f => (f cur, last)
    | Step t => let c := forcing t cur in (c, c)
    end) ops (c0, c0).
