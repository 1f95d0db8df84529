(** Model of thetis/log.py on rank 0.  Log levels are not modelled: every message passed
    to a logger is emitted. *)
From Coq Require Import List String Bool Arith.
Import ListNotations.
Open Scope string_scope.
Open Scope list_scope.

(** Handlers: StreamHandler (stderr), BufferHandler (mem_buffer, 40) and FileHandler of a
    file; the last two are subclasses of StreamHandler *)
Inductive handler := Stream | Buffer | File (path : string).
Definition is_stream (h : handler) : bool := true.
Definition is_file (h : handler) : bool := match h with File _ => true | _ => false end.
Definition is_buffer (h : handler) : bool := match h with Buffer => true | _ => false end.

(** the two loggers of logger_format, 24-27 *)
Inductive lname := Thetis | ThetisOutput.
(** formatted line; the level is part of the message of the thetis logger *)
Definition fmt (n : lname) (level msg : string) : string :=
  match n with Thetis => "thetis:" ++ level ++ " " ++ msg | ThetisOutput => msg end%string.

(** content of the files, by path *)
Definition fs := list (string * list string).
Fixpoint fs_get (f : fs) (p : string) : option (list string) :=
  match f with [] => None | (q, c) :: r => if String.eqb p q then Some c else fs_get r p end.
Fixpoint fs_set (f : fs) (p : string) (c : list string) : fs :=
  match f with
  | [] => [(p, c)]
  | (q, d) :: r => if String.eqb p q then (q, c) :: r else (q, d) :: fs_set r p c
  end.
Fixpoint fs_del (f : fs) (p : string) : fs :=
  match f with
  | [] => []
  | (q, d) :: r => if String.eqb p q then fs_del r p else (q, d) :: fs_del r p
  end.
Definition fs_append (f : fs) (p : string) (l : string) : fs :=
  fs_set f p (match fs_get f p with Some c => c ++ [l] | None => [l] end).

(** [notdirs]: paths that exist and are not directories *)
Record state := mkSt { files : fs; notdirs : list string; mem_buffer : list string;
                       stderr : list string;
                       h_thetis : list handler; h_output : list handler;
                       conf_filename : option string }.
Definition handlers (s : state) (n : lname) : list handler :=
  match n with Thetis => h_thetis s | ThetisOutput => h_output s end.
Definition set_handlers (s : state) (n : lname) (l : list handler) : state :=
  match n with
  | Thetis => mkSt (files s) (notdirs s) (mem_buffer s) (stderr s) l (h_output s) (conf_filename s)
  | ThetisOutput => mkSt (files s) (notdirs s) (mem_buffer s) (stderr s) (h_thetis s) l (conf_filename s)
  end.

(** emitting a line *)
Definition emit (line : string) (s : state) (h : handler) : state :=
  match h with
  | Stream => mkSt (files s) (notdirs s) (mem_buffer s) (stderr s ++ [line]) (h_thetis s) (h_output s) (conf_filename s)
  | Buffer => mkSt (files s) (notdirs s) (mem_buffer s ++ [line]) (stderr s) (h_thetis s) (h_output s) (conf_filename s)
  | File p => mkSt (fs_append (files s) p line) (notdirs s) (mem_buffer s) (stderr s) (h_thetis s) (h_output s) (conf_filename s)
  end.
Definition log_msg (s : state) (n : lname) (level msg : string) : state :=
  fold_left (emit (fmt n level msg)) (handlers s n) s.

(** [for handler in logger.handlers: if isinstance(...): logger.removeHandler(handler)]:
    the list is changed while it is iterated over by position, 65-67 and 103-105 *)
Definition remove_at {A} (i : nat) (l : list A) : list A := firstn i l ++ skipn (S i) l.
Fixpoint rm_iter (fuel : nat) (cls : handler -> bool) (i : nat) (hs : list handler) : list handler :=
  match fuel with
  | O => hs
  | S k => match nth_error hs i with
           | None => hs
           | Some h => if cls h then rm_iter k cls (S i) (remove_at i hs) else rm_iter k cls (S i) hs
           end
  end.
Definition rm_handlers (cls : handler -> bool) (s : state) : state :=
  let s := set_handlers s Thetis (rm_iter (List.length (h_thetis s)) cls 0 (h_thetis s)) in
  set_handlers s ThetisOutput (rm_iter (List.length (h_output s)) cls 0 (h_output s)).
Definition add_handler (h : handler) (s : state) : state :=
  let s := set_handlers s Thetis (h_thetis s ++ [h]) in
  set_handlers s ThetisOutput (h_output s ++ [h]).

(** set_thetis_loggers, 43-72 *)
Definition set_loggers (s : state) : state := add_handler Buffer (add_handler Stream (rm_handlers is_stream s)).
(** the state after importing thetis, __init__.py:31 *)
Definition start (f : fs) (nd : list string) : state := set_loggers (mkSt f nd [] [] [] [] None).

Definition logfile (dir : string) : string := (dir ++ "/log")%string.
Definition switch_message (new old : string) : string :=
  ("Setting a log file """ ++ new ++ """ that differs from previous """ ++ old ++ """, removing old handler")%string.
(** set_log_directory, 75-147; [true] is mode 'w'.  The flag of the result tells whether
    IOError was raised *)
Definition set_log_directory (dir : string) (mode_w : bool) (s : state) : state * bool :=
  let lf := logfile dir in
  match conf_filename s with
  | Some f => if String.eqb f lf then (s, false) else
      let s := rm_handlers is_file s in
      let s := mkSt (if mode_w then fs_del (files s) lf else files s) (notdirs s) (mem_buffer s)
                    (stderr s) (h_thetis s) (h_output s) (conf_filename s) in
      if existsb (String.eqb dir) (notdirs s) then (s, true) else
      let s := mkSt (fs_set (files s) lf (mem_buffer s)) (notdirs s) (mem_buffer s)
                    (stderr s) (h_thetis s) (h_output s) (conf_filename s) in
      let s := rm_handlers is_buffer s in
      let s := mkSt (files s) (notdirs s) (mem_buffer s) (stderr s) (h_thetis s) (h_output s) (Some lf) in
      let s := add_handler (File lf) s in
      (log_msg s Thetis "WARNING" (switch_message lf f), false)
  | None =>
      let s := mkSt (if mode_w then fs_del (files s) lf else files s) (notdirs s) (mem_buffer s)
                    (stderr s) (h_thetis s) (h_output s) (conf_filename s) in
      if existsb (String.eqb dir) (notdirs s) then (s, true) else
      let s := mkSt (fs_set (files s) lf (mem_buffer s)) (notdirs s) (mem_buffer s)
                    (stderr s) (h_thetis s) (h_output s) (conf_filename s) in
      let s := rm_handlers is_buffer s in
      let s := mkSt (files s) (notdirs s) (mem_buffer s) (stderr s) (h_thetis s) (h_output s) (Some lf) in
      (add_handler (File lf) s, false)
  end.

Inductive op := Log (n : lname) (level msg : string) | SetDir (dir : string) (mode_w : bool).
Definition step (s : state) (o : op) : state :=
  match o with
  | Log n l m => log_msg s n l m
  | SetDir d w => fst (set_log_directory d w s)
  end.
Definition run (s : state) (ops : list op) : state := fold_left step ops s.
