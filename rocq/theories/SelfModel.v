(** Model of InitializeVSP (core/metamod.cpp 348-388): when Metamod was started as the
    game's library it asks the engine to load it again as a server plugin. *)
From Coq Require Import List Bool Arith Ascii String.
From Verif Require Import StrModel RelModel.
Import ListNotations.
Local Open Scope char_scope.
Local Open Scope nat_scope.
Local Open Scope list_scope.

(** 361-370: the loop from the end that cuts the text at the last separator. *)
Definition is_any_sep (c : ascii) : bool := Ascii.eqb c "/" || Ascii.eqb c "\".
Fixpoint cut_rev (r : str) : option str :=
  match r with
  | [] => None
  | c :: r' => if is_any_sep c then Some r' else cut_rev r'
  end.
Definition chop_file (s : str) : str :=
  match cut_rev (rev s) with
  | Some r => rev r
  | None => s
  end.

Definition QUOTE : ascii := Ascii.ascii_of_nat 34.
Definition NEWLINE : ascii := Ascii.ascii_of_nat 10.
Definition load_word : str := list_ascii_of_string "plugin_load ".

(** 385-386: UTIL_Format into [command], PATH_SIZE * 2 bytes. *)
Definition load_command (path_size : nat) (usepath : str) : str :=
  firstn (path_size * 2 - 1) (load_word ++ QUOTE :: usepath ++ [QUOTE; NEWLINE]).

(** 348-388.  [file]: what GetFileOfAddress finds for the engine's factory ([None]: it
    fails and engine_file is never written); [abspath]: the function of that name, [None] is
    NULL; [ex]: PathExists; [metamod_path].  The result [None] is undefined behaviour,
    [Some None] no command. *)
Definition initialize_vsp (bridged : bool) (path_size : nat) (file : option str) (abspath : str -> option str)
    (ex : str -> bool) (metamod_path : str) : option (option str) :=
  if bridged then Some None else
  match file with
  | None => None
  | Some f =>
      let engine_path := match abspath (chop_file f) with Some p => p | None => [] end in
      match relatize ex (path_size * 2) engine_path metamod_path with
      | None => None
      | Some (Some rel) => Some (Some (load_command path_size rel))
      | Some None => Some (Some (load_command path_size metamod_path))
      end
  end.
