(** What logging should do, and what it does do, in terms of texts only. *)
From Coq Require Import List Bool Arith Ascii.
From Verif Require Import StrModel LogModel.
Import ListNotations.
Local Open Scope nat_scope.
Notation length := List.length.

(** Messages as their texts, with the messages that plugins log meanwhile. *)
Inductive tree := Node (text : str) (before between : list tree).

Fixpoint as_msg (t : tree) : msg :=
  match t with Node x pre mid => Msg (Formatted x) (map as_msg pre) (map as_msg mid) end.

Definition text_of (t : tree) : str := match t with Node x _ _ => x end.
Definition no_nesting (t : tree) : Prop := match t with Node _ pre mid => pre = [] /\ mid = [] end.

(** a property of all texts of a tree *)
Fixpoint all_texts (P : str -> Prop) (t : tree) : Prop :=
  match t with
  | Node x pre mid =>
      P x /\ fold_right (fun u p => all_texts P u /\ p) True pre /\ fold_right (fun u p => all_texts P u /\ p) True mid
  end.

(** texts of C strings *)
Definition c_text (x : str) : Prop := ~ In NUL x.

(** Intended: one line for each message, in the log (or on stdout) and on the console; messages logged
    meanwhile are dropped. *)
Definition intended (engine : bool) (l : list tree) : list out :=
  flat_map (fun t => let line := text_of t ++ [NEWLINE] in
                     [if engine then Logged line else Stdout line; Printed line]) l.

(** What one text becomes in the buffer. *)
Definition line_of (size : nat) (x : str) : str :=
  if length x <=? size - 3 then x ++ [NEWLINE] else firstn (size - 3) x.

(** The line the buffer holds after a message, and after a list of them when it held [x]. *)
Fixpoint left_by (engine : bool) (t : tree) : str :=
  match t with
  | Node x pre mid =>
      fold_left (fun _ u => left_by engine u) mid
        (if engine then fold_left (fun _ u => left_by engine u) pre x else x)
  end.
Definition left_after (engine : bool) (x : str) (l : list tree) : str := fold_left (fun _ u => left_by engine u) l x.

(** The lines that are written: those of the messages logged meanwhile, and for the message itself
    whatever the buffer holds by then. *)
Fixpoint written (size : nat) (engine : bool) (t : tree) : list out :=
  match t with
  | Node x pre mid =>
      let y := if engine then left_after engine x pre else x in
      (if engine then flat_map (written size engine) pre ++ [Logged (line_of size y)]
       else [Stdout (line_of size y)])
      ++ flat_map (written size engine) mid ++ [Printed (line_of size (left_after engine y mid))]
  end.

(** Any message: also those whose formatting fails, leaving anything in the array *)
Fixpoint all_results (P : vsn -> Prop) (m : msg) : Prop :=
  match m with
  | Msg r pre mid =>
      P r /\ fold_right (fun u p => all_results P u /\ p) True pre /\ fold_right (fun u p => all_results P u /\ p) True mid
  end.
Definition possible (size : nat) (r : vsn) : Prop :=
  match r with Formatted x => c_text x | FormatError g => length g = size end.

Definition string_of (o : out) : str := match o with Logged s | Stdout s | Printed s => s end.

(** n messages, each logged by a plugin that is called because of the one before *)
Fixpoint chain (x : str) (n : nat) : tree :=
  match n with O => Node x [] [] | S n => Node x [chain x n] [] end.
