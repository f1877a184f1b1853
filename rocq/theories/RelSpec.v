(** What a path denotes. *)
From Coq Require Import List Bool Ascii.
From Verif Require Import StrModel.
Import ListNotations.
Open Scope char_scope.

(** the fields between slashes *)
Fixpoint fields (s : str) : list str :=
  match s with
  | [] => [[]]
  | c :: s => if ascii_dec c "/" then [] :: fields s
              else match fields s with f :: fs => (c :: f) :: fs | [] => [[c]] end
  end.

(** walking down from a directory, given as the list of names from it up to the root *)
Definition step (dir : list str) (f : str) : list str :=
  if list_eq_dec ascii_dec f [] then dir
  else if list_eq_dec ascii_dec f ["."] then dir
  else if list_eq_dec ascii_dec f ["."; "."] then tl dir
  else f :: dir.
Definition walk (dir : list str) (fs : list str) : list str := fold_left step fs dir.
Definition denote (s : str) : list str := walk [] (fields s).

(** a proper name *)
Definition proper (f : str) : Prop := f <> [] /\ f <> ["."] /\ f <> ["."; "."].

(** a normalized absolute path, possibly with a slash at the end *)
Definition normal (s : str) : Prop :=
  exists l z, fields s = [] :: l ++ [z] /\ Forall proper l /\ (proper z \/ z = []).

Definition absolute (s : str) : Prop := exists t, s = "/" :: t.
