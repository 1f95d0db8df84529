(** The log file of the 3D solver.

    Modelled code: thetis/solver.py:657-662 (create_equations), which adds a second
    FileHandler for the file that set_log_directory (log.py:75-147, Log_Model.v; called by
    create_fields, solver.py:479-481) has assigned to both loggers.

    A file is a list of bytes; several descriptors may be open on it.  Mode 'a' opens with
    O_APPEND: every write goes to the end.  Mode 'w' truncates and then writes at the
    descriptor's own offset, a gap being filled with NUL bytes (POSIX write).  FileHandler
    flushes after every record, so that writes happen in the order of the calls.
    Rank 0 has the handlers of set_log_directory (mode 'a'), the other ranks have none
    there (log.py:119-123); create_equations makes no difference between the ranks.

    Simplification: levels are not modelled, a record is the bytes of its line. *)
From Coq Require Import List Bool Arith.
Import ListNotations.

Section LogFile.
Variable byte : Type.
Variable nul : byte.
Definition bytes := list byte.

(** a descriptor: appending, or with an offset *)
Inductive fd := Append | At (off : nat).

(** POSIX write *)
Definition pad (n : nat) (c : bytes) : bytes := c ++ repeat nul (n - length c).
Definition write_at (off : nat) (l c : bytes) : bytes :=
  let c := pad off c in firstn off c ++ l ++ skipn (off + length l) c.
Definition write (l : bytes) (c : bytes) (d : fd) : bytes * fd :=
  match d with
  | Append => (c ++ l, Append)
  | At off => (write_at off l c, At (off + length l))
  end.
(** the handlers of a logger, in the order they were added *)
Fixpoint write_all (l : bytes) (c : bytes) (ds : list fd) : bytes * list fd :=
  match ds with
  | [] => (c, [])
  | d :: r => let '(c1, d1) := write l c d in
              let '(c2, r2) := write_all l c1 r in (c2, d1 :: r2)
  end.

(** the file, and for each rank the file handlers of output_logger and of logger *)
Record state := mkSt { content : bytes; out : nat -> list fd; warn : nat -> list fd }.
Definition upd {A} (f : nat -> A) (r : nat) (v : A) : nat -> A := fun q => if Nat.eqb q r then v else f q.

(** after set_log_directory: the buffered messages, one appending handler on each logger of
    rank 0 *)
Definition init (buf : bytes) : state :=
  mkSt buf (fun r => if Nat.eqb r 0 then [Append] else []) (fun r => if Nat.eqb r 0 then [Append] else []).

(** print_output, warning, and create_equations of a 3D solver with log_output and exports
    (keep = keep_log) *)
Inductive event := Output (r : nat) (l : bytes) | Warning (r : nat) (l : bytes) | Equations (r : nat) (keep : bool).
Definition step (s : state) (e : event) : state :=
  match e with
  | Output r l => let '(c, ds) := write_all l (content s) (out s r) in mkSt c (upd (out s) r ds) (warn s)
  | Warning r l => let '(c, ds) := write_all l (content s) (warn s r) in mkSt c (out s) (upd (warn s) r ds)
  | Equations r true => mkSt (content s) (upd (out s) r (out s r ++ [Append])) (warn s)
  | Equations r false => mkSt [] (upd (out s) r (out s r ++ [At 0])) (warn s)
  end.
Definition run (s : state) (es : list event) : state := fold_left step es s.
End LogFile.
