(** What the engine reads in a command line with one quoted argument. *)
From Coq Require Import List Ascii String.
From Verif Require Import StrModel.
Import ListNotations.
Local Open Scope list_scope.
Local Open Scope char_scope.

(** [line] is exactly the command [word] with the quoted argument [arg], ended by a
    newline; a quote ends the argument wherever it stands. *)
Definition one_argument (word arg line : str) : Prop :=
  line = word ++ " " :: ascii_of_nat 34 :: arg ++ [ascii_of_nat 34; ascii_of_nat 10] /\
  ~ In (ascii_of_nat 34) arg /\ ~ In (ascii_of_nat 10) arg.

Definition directory_of (file dir : str) : Prop :=
  exists c name, file = dir ++ c :: name /\ (c = "/" \/ c = "\") /\ ~ In "/" name /\ ~ In "\" name.
