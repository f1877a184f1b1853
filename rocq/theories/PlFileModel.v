(** Model of the plugin list file and of plugin paths.
    Sources: /repo/core/metamod.cpp 248-346 (LoadPluginsFromFile) and 1136-1190
    (GetFullPluginPath), Linux x86-64 build.
    Simplified: characters above 127 are not white space and not letters (glibc,
    "C" locale); the plugin manager's Load and SetAlias are the events of the run,
    the counters [total] and [skipped] are not kept. *)
From Coq Require Import List Bool Arith Ascii String.
From Verif Require Import StrModel.
Import ListNotations.
Local Open Scope char_scope.
Local Open Scope nat_scope.
Local Notation "'do' x <- a ; b" := (match a with Some x => b | None => None end)
  (at level 200, x pattern, a at level 100, b at level 200).
Notation length := List.length.

Definition NL : ascii := "010".
Definition QUOTE : ascii := "034".

(** What an iteration does: SetAlias (line 315), Load of a file (line 330, before
    GetFullPluginPath). *)
Inductive pev := EAlias (alias value : str) | ELoad (file : str).

(** fgets: at most [k] bytes up to and including the first newline *)
Fixpoint take_line (k : nat) (s : str) : str * str :=
  match k, s with
  | O, _ => ([], s)
  | _, [] => ([], [])
  | S k', c :: s' => if Ascii.eqb c NL then ([c], s')
                     else let (p, r) := take_line k' s' in (c :: p, r)
  end.

(** line 289-297: the loop that cuts at the closing quote; [fuel] iterations *)
Fixpoint quote_loop (fuel : nat) (b : buf) (i : nat) : option buf :=
  match fuel with
  | O => None
  | S fuel' =>
      do c <- nth_error b i ;
      if Ascii.eqb c NUL then Some b
      else if Ascii.eqb c QUOTE then poke b i NUL
      else quote_loop fuel' b (S i)
  end.

(** line 307-310 *)
Fixpoint ws_loop (fuel : nat) (b : buf) (i : nat) : option nat :=
  match fuel with
  | O => None
  | S fuel' =>
      do c <- nth_error b i ;
      if negb (Ascii.eqb c NUL) && isspace c then ws_loop fuel' b (S i) else Some i
  end.

(** UTIL_TrimRight of the text at offset [i] (line 312) *)
Definition TrimRight_at (b : buf) (i : nat) : option buf :=
  do r <- UTIL_TrimRight (skipn i b) ; Some (firstn i b ++ r).

Definition text_at (b : buf) (i : nat) : option str := cstr (skipn i b).

(** line 301-321: the array, the offset of [file] and the SetAlias calls *)
Fixpoint alias_loop (fuel : nat) (b : buf) (i : nat) : option (buf * nat * list pev) :=
  match fuel with
  | O => None
  | S fuel' =>
      do c <- nth_error b i ;
      if Ascii.eqb c NUL then Some (b, 0, [])
      else if isspace c then
        do j <- ws_loop (S (length b)) b i ;
        do b1 <- poke b i NUL ;
        do b2 <- TrimRight_at b1 j ;
        do d <- nth_error b2 j ;
        if negb (Ascii.eqb d NUL) && isalpha d then
          do a <- text_at b2 0 ;
          do v <- text_at b2 j ;
          Some (b2, j, [EAlias a v])
        else Some (b2, 0, [])
      else alias_loop fuel' b (S i)
  end.

(** line 269-330, one iteration of the loop on the array which fgets has filled *)
Definition line_body (b : buf) : option (buf * list pev) :=
  do b <- UTIL_TrimLeft b ;
  do b <- UTIL_TrimRight b ;
  do s <- cstr b ;
  match s with
  | [] => Some (b, [])
  | c :: s' =>
      if Ascii.eqb c ";" || (Ascii.eqb c "/" && match s' with d :: _ => Ascii.eqb d "/" | [] => false end)
      then Some (b, [])
      else
        do (b, off, ev) <-
          (if Ascii.eqb c QUOTE then do b <- quote_loop (S (length b)) b 1 ; Some (b, 1, [])
           else alias_loop (S (length b)) b 0) ;
        do f <- text_at b off ;
        match f with
        | [] => Some (b, ev)
        | _ => Some (b, ev ++ [ELoad f])
        end
  end.

(** line 267: the loop over the file contents [s]; the array keeps what earlier
    iterations left in it *)
Fixpoint file_loop (fuel : nat) (b : buf) (s : str) : option (list pev) :=
  match s with
  | [] => Some []
  | _ :: _ =>
      match fuel with
      | O => None
      | S fuel' =>
          let (p, r) := take_line (length b - 1) s in
          do b <- store_str b p ;
          do (b, ev) <- line_body b ;
          do evs <- file_loop fuel' b r ;
          Some (ev ++ evs)
      end
  end.

(** LoadPluginsFromFile; [b]: the uninitialised array of 255 bytes *)
Definition LoadPluginsFromFile (b : buf) (contents : str) : option (list pev) :=
  file_loop (length contents) b contents.

(** GetFullPluginPath (1136-1190).  [exists_] is stat.  The absolute path is the
    format of UTIL_Format (line 1144): a conversion in it has no argument, [None]. *)
Fixpoint printf_noargs (s : str) : option str :=
  match s with
  | [] => Some []
  | c :: s' =>
      if Ascii.eqb c "%" then
        match s' with
        | d :: s'' => if Ascii.eqb d "%" then do t <- printf_noargs s'' ; Some ("%" :: t) else None
        | [] => None
        end
      else do t <- printf_noargs s' ; Some (c :: t)
  end.

Definition DOT_SO : str := [".";"s";"o"].
Definition X64_SO : str := [".";"x";"6";"4";".";"s";"o"].

(** line 1142; the byte behind an empty name is not the name's: [None] *)
Definition is_abs (plugin : str) : option bool :=
  match plugin with
  | [] => None
  | c :: r => Some (Ascii.eqb c "/" || match r with d :: e :: _ => Ascii.eqb d ":" && Ascii.eqb e "\" | _ => false end)
  end.

Definition GetFullPluginPath (exists_ : str -> bool) (mod_path plugin : str) (b : buf) (len : nat) : option (buf * nat) :=
  do a <- is_abs plugin ;
  if a then do t <- printf_noargs plugin ; FormatArgs b len (Formatted t)
  else
    do pext <- UTIL_GetExtension plugin ;
    let ext := match pext with None => X64_SO | Some _ => [] end in
    do (b, num) <- mm_PathFormat b len (Formatted (mod_path ++ "/" :: plugin ++ ext)) ;
    do path <- cstr b ;
    match pext with
    | None => if exists_ path then Some (b, num)
              else mm_PathFormat b len (Formatted (mod_path ++ "/" :: plugin ++ DOT_SO))
    | Some _ => Some (b, num)
    end.
