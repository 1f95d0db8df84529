(** Model of /repo/thetis/assembledschur.py: the preconditioner of the pressure
    solve, and of the block factorisation it is used in.

    Matrices are mathcomp matrices over an arbitrary field; assembling a form
    is an input of the model (the values the three blocks of the Jacobian have
    at the moment of the call).  PETSc objects are modelled by their values:
    [matMult]'s third argument is only storage for the result and its content
    is overwritten.  Non-zero patterns are not modelled. *)

From mathcomp Require Import ssreflect ssrfun ssrbool eqtype ssrnat seq fintype bigop.
From mathcomp Require Import ssralg ssrnum ssrint matrix.
Set Implicit Arguments.
Unset Strict Implicit.
Unset Printing Implicit Defensive.
Import GRing.Theory Num.Theory.
Local Open Scope ring_scope.

Section Schur.
Variable F : fieldType.
Variables m n : nat.   (* dimensions of the velocity and elevation spaces *)

(** A dense matrix [Y], assembledschur.py:66,69: PETSc's
    Y.aypx(alpha, X) sets Y to alpha*Y + X. *)
Definition aypx p q (alpha : F) (Y X : 'M[F]_(p, q)) : 'M[F]_(p, q) :=
  alpha *: Y + X.

(** C = A.matMult(B, C, fill), assembledschur.py:62-63; [buf] is the old
    content of the result, None at the first call. *)
Definition matMult p q r (A : 'M[F]_(p, q)) (B : 'M[F]_(q, r))
  (buf : option 'M[F]_(p, r)) : 'M[F]_(p, r) :=
  A *m B.

(** The three blocks of the Jacobian assembled by an update,
    assembledschur.py:54-60. *)
Record blocks := Blocks { b01 : 'M[F]_(m, n); b10 : 'M[F]_(n, m); b11 : 'M[F]_n }.

(** The state of the preconditioner, assembledschur.py:36-46. [s_ksp] is the
    operator the inner solver holds. *)
Record pc := Pc
  { s_inv : 'M[F]_m;
    s_10inv : option 'M[F]_(n, m);
    s_schur : option 'M[F]_n;
    s_plus : option 'M[F]_n;
    s_ksp : option 'M[F]_n }.

(** assembledschur.py:53-70. *)
Definition update (s : pc) (b : blocks) : pc :=
  let t := matMult (b10 b) (s_inv s) (s_10inv s) in
  let sc := matMult t (b01 b) (s_schur s) in
  let plus :=
    match s_plus s with
    | None => let d := sc in aypx (-1) d (b11 b)
    | Some old => let d := sc in aypx (-1) d (b11 b)
    end in
  Pc (s_inv s) (Some t) (Some sc) (Some plus) (Some plus).

(** assembledschur.py:25-51: [ainv] is the assembled elementwise inverse of
    the velocity mass matrix. *)
Definition initialize (ainv : 'M[F]_m) (b : blocks) : pc :=
  update (Pc ainv None None None None) b.

(** An update per later Jacobian. *)
Definition history (ainv : 'M[F]_m) (b : blocks) (bs : seq blocks) : pc :=
  foldl update (initialize ainv b) bs.

(** assembledschur.py:72-76 and :89-90. The inner solver answers with a vector
    and a reason: the vector is only handed on if the reason is not negative. *)
Inductive outcome (A : Type) := Done (a : A) | RuntimeError | NotImplementedError | NotReady.
Arguments Done {A}. Arguments RuntimeError {A}.
Arguments NotImplementedError {A}. Arguments NotReady {A}.

Definition apply (ksp : 'M[F]_n -> 'cV[F]_n -> 'cV[F]_n * int) (s : pc)
  (X : 'cV[F]_n) : outcome 'cV[F]_n :=
  match s_ksp s with
  | None => NotReady
  | Some op =>
      let (Y, r) := ksp op X in
      if r < 0 then RuntimeError else Done Y
  end.

Definition applyTranspose (s : pc) (X : 'cV[F]_n) : outcome 'cV[F]_n :=
  NotImplementedError.

(** The block solve around it, options.py:97-123: a Schur complement
    'fieldsplit' with 'full' factorisation, as PETSc's PCFIELDSPLIT applies it.
    [v00] is the velocity solve (an iterative solve to a tolerance in the code;
    a parameter here). *)
Definition fieldsplit (v00 : 'cV[F]_m -> 'cV[F]_m)
  (ksp : 'M[F]_n -> 'cV[F]_n -> 'cV[F]_n * int) (s : pc) (b : blocks)
  (f : 'cV[F]_m) (g : 'cV[F]_n) : outcome ('cV[F]_m * 'cV[F]_n) :=
  match apply ksp s (g - b10 b *m v00 f) with
  | Done y => Done (v00 (f - b01 b *m y), y)
  | RuntimeError => RuntimeError
  | NotImplementedError => NotImplementedError
  | NotReady => NotReady
  end.

End Schur.

Arguments Done {A}. Arguments RuntimeError {A}.
Arguments NotImplementedError {A}. Arguments NotReady {A}.

(** assemble(Tensor(mass).inv), assembledschur.py:35: [cell] gives the cell a
    degree of freedom belongs to, [local] the inverse of the matrix of a cell;
    entries of different cells do not interact.  Modelled for spaces whose
    degrees of freedom belong to one cell each. *)
Definition elementwise (F : fieldType) (m : nat) (C : eqType) (cell : 'I_m -> C)
  (local : C -> 'I_m -> 'I_m -> F) : 'M[F]_m :=
  \matrix_(i, j) (if cell i == cell j then local (cell i) i j else 0).
