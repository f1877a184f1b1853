(** What should become of the search paths. *)
From Coq Require Import List Bool String.
Import ListNotations.
Local Open Scope string_scope.

(** a directory whose name has the text somewhere in it *)
Definition mentions (needle hay : string) : Prop := exists a b, hay = a ++ needle ++ b.

(** [l'] is [l] without the entries that satisfy [P], in order *)
Inductive without (P : string -> Prop) : list string -> list string -> Prop :=
| w_nil : without P [] []
| w_drop x l l' : P x -> without P l l' -> without P (x :: l) l'
| w_keep x l l' : ~ P x -> without P l l' -> without P (x :: l) (x :: l').

(** inside the directory [d] *)
Definition below (d p : string) : Prop := exists r, p = d ++ "/" ++ r.

(** the thirteen lists Metamod's directory may have got into *)
Definition affected (id : string) : Prop :=
  In id ["ADDONS"; "CONTENTADDONS"; "CONTENT"; "CONTENTROOT"; "SHADER_SOURCE"; "SHADER_SOURCE_MOD"; "SHADER_SOURCE_ROOT";
         "GAME"; "GAMEBIN"; "GAMEROOT"; "MOD"; "PLATFORM"; "EXECUTABLE_PATH"].
