(** Model of how the Source 2 provider takes Metamod's directory out of the search paths.
    Source: /repo/core/provider/source2/provider_source2.cpp 87-133 (part of Notify_DLLInit_Pre).

    The file system is a list of directories for each path id.  GetSearchPathsForPathID gives a copy of the list;
    RemoveSearchPath takes out a directory: all entries equal to it, or only the first ([every] says which, the
    engine's code is not in the repository); GetSearchPath with 1 gives the first directory, or the empty text. *)
From Coq Require Import List Bool String.
Import ListNotations.
Local Open Scope string_scope.

Definition fs := string -> list string.
Definition set (f : fs) (id : string) (l : list string) : fs := fun x => if String.eqb x id then l else f x.

(** strstr *)
Fixpoint strstr (hay needle : string) : bool :=
  String.prefix needle hay || match hay with EmptyString => false | String _ h => strstr h needle end.

Fixpoint remove1 (p : string) (l : list string) : list string :=
  match l with [] => [] | x :: l => if String.eqb x p then l else x :: remove1 p l end.
Definition RemoveSearchPath (every : bool) (f : fs) (p id : string) : fs :=
  set f id (if every then filter (fun x => negb (String.eqb x p)) (f id) else remove1 p (f id)).
Definition RemoveSearchPaths (f : fs) (id : string) : fs := set f id [].
Definition AddSearchPath (f : fs) (p id : string) : fs := set f id (f id ++ [p]).
Definition GetSearchPath (f : fs) (id : string) : string := match f id with [] => "" | p :: _ => p end.

(** 100-114 *)
Definition pathIds : list string :=
  ["ADDONS"; "CONTENT"; "CONTENTADDONS"; "CONTENTROOT"; "EXECUTABLE_PATH"; "GAME"; "GAMEBIN"; "GAMEROOT"; "MOD";
   "PLATFORM"; "SHADER_SOURCE"; "SHADER_SOURCE_MOD"; "SHADER_SOURCE_ROOT"].

(** 116-128 *)
Definition inner (every : bool) (id : string) (searchPaths : list string) (f : fs) : fs :=
  fold_left (fun f p => if strstr p "metamod" then RemoveSearchPath every f p id else f) searchPaths f.
Definition outer (every : bool) (ids : list string) (f : fs) : fs :=
  fold_left (fun f id => inner every id (f id) f) ids f.

(** 116-133 *)
Definition fix_paths (every : bool) (f : fs) : fs :=
  let f := outer every pathIds f in
  let f := RemoveSearchPaths f "DEFAULT_WRITE_PATH" in
  AddSearchPath f (GetSearchPath f "GAME") "DEFAULT_WRITE_PATH".
