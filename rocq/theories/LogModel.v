(** Model of mm_LogMessage.  Source: /repo/core/metamod.cpp 416-468;
    /repo/core/provider/provider_base.cpp 74-84 (LogMessage).

    The buffer and the guard are static, so they are arguments.  The message is formatted by vsnprintf,
    whose outcome is [StrModel.vsn].  engine->LogPrint and ConsolePrint get the address of the buffer and
    may be hooked by plugins, which may log in turn: a message is a tree.  [before] are the messages
    logged by code that runs before the engine's LogPrint reads the buffer (pre hooks), [between] those
    logged after that and before the engine's console function reads it (post hooks of the one, pre hooks
    of the other).  Messages logged by post hooks of the console function come after the last use of the
    buffer, so they are messages of their own, next in line.  [console] is ConsolePrint, taken to print the
    string it gets.  The size of the buffer is an argument; the code has 2048. *)
From Coq Require Import List Bool Arith Ascii.
From Verif Require Import StrModel.
Import ListNotations.
Local Open Scope nat_scope.
Notation length := List.length.

Definition NEWLINE : ascii := ascii_of_nat 10.

(** What one message does when it is formatted: [FormatError g] is vsnprintf's error with the array
    left as [g]. *)
Inductive msg := Msg (text : vsn) (before between : list msg).

Inductive out :=
| Logged (s : str)        (* engine->LogPrint *)
| Stdout (s : str)        (* fprintf(stdout, ...) *)
| Printed (s : str).      (* ConsolePrint *)

(** the static variables: g_logging and buffer *)
Record st := mk { guard : bool; buffer : buf }.

(** SaveAndSet<bool>(&g_logging, true); (metamod.cpp 416-432, 442): the object has no name, so it is
    destroyed at the end of the statement. *)
Definition SaveAndSet_ctor (s : st) : bool * st := (guard s, mk true (buffer s)).
Definition SaveAndSet_dtor (old : bool) (s : st) : st := mk old (buffer s).

(** vsnprintf(buffer, n, ...) (447): the array afterwards and the result as a size_t; an error is
    (size_t)-1, larger than any size. *)
Definition vsnprintf (b : buf) (n : nat) (r : vsn) : option (buf * option nat) :=
  match r with
  | Formatted text =>
      match store_str b (firstn (n - 1) text) with
      | Some b' => Some (b', Some (length text))
      | None => None
      end
  | FormatError g => Some (g, None)
  end.

(** 447-456: format, limit the length, add the newline and the terminator *)
Definition fill (size : nat) (b : buf) (r : vsn) : option buf :=
  match vsnprintf b (size - 2) r with
  | None => None
  | Some (b1, k) =>
      let len := match k with Some k => Nat.min k (size - 2) | None => size - 2 end in
      match poke b1 len NEWLINE with
      | None => None
      | Some b2 => poke b2 (len + 1) NUL
      end
  end.

(** running the messages of a list, each by [f] *)
Definition each (f : msg -> st -> option (list out * st)) (l : list msg) (s : st) : option (list out * st) :=
  fold_left (fun acc m => match acc with
                          | None => None
                          | Some (o, s) => match f m s with
                                           | None => None
                                           | Some (o', s') => Some (o ++ o', s')
                                           end
                          end) l (Some ([], s)).

(** mm_LogMessage (434-468); [engine]: there is an engine.  [None]: an access outside the array. *)
Fixpoint mm_LogMessage (size : nat) (engine : bool) (m : msg) (s : st) {struct m} : option (list out * st) :=
  match m with
  | Msg r pre mid =>
      if guard s then Some ([], s)
      else
        let (old, s) := SaveAndSet_ctor s in
        let s := SaveAndSet_dtor old s in
        match fill size (buffer s) r with
        | None => None
        | Some b =>
            let s := mk (guard s) b in
            let log :=
              if engine then
                match each (mm_LogMessage size engine) pre s with
                | None => None
                | Some (o, s) =>
                    match cstr (buffer s) with
                    | None => None
                    | Some t => Some (o ++ [Logged t], s)
                    end
                end
              else
                match cstr (buffer s) with None => None | Some t => Some ([Stdout t], s) end in
            match log with
            | None => None
            | Some (o1, s) =>
                match each (mm_LogMessage size engine) mid s with
                | None => None
                | Some (o2, s) =>
                    match cstr (buffer s) with
                    | None => None
                    | Some t => Some (o1 ++ o2 ++ [Printed t], s)
                    end
                end
            end
        end
  end.

(** the static variables at the start of the process *)
Definition start (size : nat) : st := mk false (repeat NUL size).

(** a sequence of messages in one process *)
Definition log_all (size : nat) (engine : bool) (l : list msg) : option (list out * st) :=
  each (mm_LogMessage size engine) l (start size).
