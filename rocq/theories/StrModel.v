(** Byte-string utilities of the core and of the loader.
    Sources: /repo/core/metamod_util.cpp, /repo/loader/utility.cpp (POSIX build). *)
From Coq Require Import List Bool Arith Ascii NArith.
Import ListNotations.
Open Scope char_scope.
Open Scope nat_scope.

Definition str := list ascii.
Definition NUL : ascii := zero.

(** A char array.  [cstr b] is the C string stored in it ([None]: there is no
    terminator inside the array, every C string function would run off its end). *)
Definition buf := list ascii.

Fixpoint cstr (b : buf) : option str :=
  match b with
  | [] => None
  | c :: b' => if Ascii.eqb c NUL then Some []
               else match cstr b' with Some s => Some (c :: s) | None => None end
  end.

(** Store one byte; [None]: outside the array. *)
Fixpoint poke (b : buf) (i : nat) (c : ascii) : option buf :=
  match b, i with
  | [], _ => None
  | _ :: b', O => Some (c :: b')
  | x :: b', S i' => match poke b' i' c with Some r => Some (x :: r) | None => None end
  end.

(** strcpy / memmove of a string together with its terminator to the start of
    the array; [None]: does not fit. *)
Definition store_str (b : buf) (s : str) : option buf :=
  if length s + 1 <=? length b then Some (s ++ [NUL] ++ skipn (length s + 1) b) else None.

(** isspace in the "C" locale *)
Definition isspace (c : ascii) : bool :=
  match nat_of_ascii c with
  | 9 | 10 | 11 | 12 | 13 | 32 => true
  | _ => false
  end.

Fixpoint drop_space (s : str) : str :=
  match s with
  | [] => []
  | c :: s' => if isspace c then drop_space s' else s
  end.

(** loader/utility.cpp 111-128: mm_TrimLeft.  The scan stops at the
    terminator because NUL is not white space. *)
Definition mm_TrimLeft (b : buf) : option buf :=
  match cstr b with
  | None => None
  | Some s =>
      if length (drop_space s) =? length s then Some b      (* i == buffer *)
      else store_str b (drop_space s)                       (* memmove *)
  end.

(** loader/utility.cpp 130-147: mm_TrimRight.  [k] is i+1 of the loop
    (the loop ends when i wraps, i.e. when k = 0). *)
Fixpoint trim_right_loop (b : buf) (k : nat) : option buf :=
  match k with
  | O => Some b
  | S i =>
      match nth_error b i with
      | None => None
      | Some c =>
          if isspace c then
            match poke b i NUL with
            | None => None
            | Some b' => trim_right_loop b' i
            end
          else Some b
      end
  end.

Definition mm_TrimRight (b : buf) : option buf :=
  match cstr b with
  | None => None
  | Some s => trim_right_loop b (length s)
  end.

(** core/metamod_util.cpp 75-100: UTIL_TrimLeft / UTIL_TrimRight copy to a
    std::string, trim that, and strcpy it back. *)
Definition UTIL_TrimLeft (b : buf) : option buf :=
  match cstr b with
  | None => None
  | Some s => store_str b (drop_space s)
  end.

Definition UTIL_TrimRight (b : buf) : option buf :=
  match cstr b with
  | None => None
  | Some s => store_str b (rev (drop_space (rev s)))
  end.

(** loader/utility.cpp 149-173: mm_TrimComments; [i] runs from 0 to [len],
    [n] iterations are left, [num_sc] as in the C++. *)
Fixpoint trim_comments_loop (b : buf) (i : nat) (n : nat) (num_sc : nat) : option buf :=
  match n with
  | O => Some b
  | S n' =>
      match nth_error b i with
      | None => None
      | Some c =>
          if Ascii.eqb c "/" then
            if 2 <=? S num_sc then
              match i with
              | O => None
              | S i' => poke b i' NUL
              end
            else trim_comments_loop b (S i) n' (S num_sc)
          else trim_comments_loop b (S i) n' 0
      end
  end.

Definition mm_TrimComments (b : buf) : option buf :=
  match cstr b with
  | None => None
  | Some s => trim_comments_loop b 0 (length s) 0
  end.

(** loader/utility.cpp 175-216: mm_KeySplit. *)
(** 180-184, 205-209: first index >= i whose character is not white space
    (or [len]); as a suffix. *)
Fixpoint skip_space (s : str) : str :=
  match s with
  | [] => []
  | c :: s' => if negb (isspace c) then s else skip_space s'
  end.

(** 186-191: split at the first white space. *)
Fixpoint word_and_rest (s : str) : str * str :=
  match s with
  | [] => ([], [])
  | c :: s' => if isspace c then ([], s)
               else let (w, r) := word_and_rest s' in (c :: w, r)
  end.

(** 193-200, 211-217: the copy loops; [c] is the output index. *)
Fixpoint copy_loop (b : buf) (c : nat) (len : nat) (s : str) : option buf :=
  match s with
  | [] => poke b c NUL
  | x :: s' =>
      if len <=? c then poke b c NUL
      else match poke b c x with
           | None => None
           | Some b' => copy_loop b' (S c) len s'
           end
  end.

Definition mm_KeySplit (s : str) (buf1 : buf) (len1 : nat) (buf2 : buf) (len2 : nat)
  : option (buf * buf) :=
  let (w, r) := word_and_rest (skip_space s) in
  match copy_loop buf1 0 len1 w with
  | None => None
  | Some b1 =>
      match copy_loop buf2 0 len2 (skip_space r) with
      | None => None
      | Some b2 => Some (b1, b2)
      end
  end.

(** core/metamod_util.cpp 102-159 (UTIL_PathCmp) and loader/utility.cpp 243-291
    (mm_PathCmp after the realpath calls).  POSIX: PATH_SEP_CHAR = '/',
    comparison of characters is equality.  The loop is run with fuel; [None]
    would mean that the fuel was too small (excluded in the theorems). *)
Definition SEP : ascii := "/".

Fixpoint skip_sep (s : str) : str :=
  match s with
  | [] => []
  | c :: s' => if Ascii.eqb c SEP then skip_sep s' else s
  end.

Definition is_high (c : ascii) : bool := 128 <=? nat_of_ascii c.
Definition isalpha (c : ascii) : bool :=
  let n := nat_of_ascii c in
  ((65 <=? n) && (n <=? 90)) || ((97 <=? n) && (n <=? 122)).

Fixpoint pathcmp_loop (fuel : nat) (p1 p2 : str) : option bool :=
  match fuel with
  | O => None
  | S fuel' =>
      match p1, p2 with
      | [], [] => Some true
      | [], _ :: _ => Some false
      | _ :: _, [] => Some false
      | a :: p1', b :: p2' =>
          if Ascii.eqb a SEP then
            if negb (Ascii.eqb b SEP) then Some false
            else pathcmp_loop fuel' (skip_sep p1') (skip_sep p2')
          else if (is_high a && negb (Ascii.eqb a b)) || (negb (isalpha a) && negb (Ascii.eqb a b))
          then Some false
          else if negb (Ascii.eqb a b) then Some false
          else pathcmp_loop fuel' p1' p2'
      end
  end.

Definition UTIL_PathCmp (p1 p2 : str) : option bool :=
  pathcmp_loop (S (length p1)) p1 p2.

(** loader/utility.cpp 218-245: mm_PathCmp; [realpath] is the OS. *)
Definition mm_PathCmp (realpath : str -> option str) (p1 p2 : str) : option bool :=
  let q1 := match realpath p1 with Some r => r | None => p1 end in
  let q2 := match realpath p2 with Some r => r | None => p2 end in
  UTIL_PathCmp q1 q2.

(** vsnprintf.  [Formatted text]: the complete text (no NUL in it);
    [FormatError garbage]: an encoding error, the buffer holds [garbage]. *)
Inductive vsn := Formatted (text : str) | FormatError (garbage : buf).

(** core/metamod_util.cpp 161-189 (UTIL_Format, UTIL_FormatArgs),
    loader/utility.cpp 65-77 (mm_FormatArgs).  Result: buffer and returned
    length; [None]: write outside the buffer. *)
Definition FormatArgs (b : buf) (maxlength : nat) (r : vsn) : option (buf * nat) :=
  match maxlength with
  | O => None                                   (* buffer[SIZE_MAX] = 0 *)
  | S last =>
      match r with
      | Formatted text =>
          match store_str b (firstn last text) with
          | None => None
          | Some b' =>
              if maxlength <=? length text
              then match poke b' last NUL with Some b'' => Some (b'', last) | None => None end
              else Some (b', length text)
          end
      | FormatError garbage =>
          (* len = (size_t)-1 >= maxlength *)
          if length garbage =? length b
          then match poke garbage last NUL with Some b'' => Some (b'', last) | None => None end
          else None
      end
  end.

Definition ALT_SEP : ascii := "\".

Fixpoint fix_seps (b : buf) (n : nat) : buf :=
  match n, b with
  | O, _ => b
  | _, [] => []
  | S n', c :: b' => (if Ascii.eqb c ALT_SEP then SEP else c) :: fix_seps b' n'
  end.

(** loader/utility.cpp 92-109: mm_PathFormat *)
Definition mm_PathFormat (b : buf) (maxlength : nat) (r : vsn) : option (buf * nat) :=
  match FormatArgs b maxlength r with
  | None => None
  | Some (b', len) => if len <=? length b' then Some (fix_seps b' len, len) else None
  end.

(** loader/utility.cpp 715-757: mm_GetCommandArgument (Linux).  [args] are
    the NUL-separated strings of /proc/self/cmdline, [None] if it cannot be
    opened.  [b]: the buffer ([None] = nullptr). *)
Definition str_eqb (a b : str) : bool :=
  if list_eq_dec ascii_dec a b then true else false.

(** strncpy pads with NULs up to maxlength *)
Definition strncpy (b : buf) (s : str) (maxlength : nat) : option buf :=
  if maxlength <=? length b
  then Some (firstn maxlength s ++ repeat NUL (maxlength - length s) ++ skipn maxlength b)
  else None.

Fixpoint find_arg (args : list str) (name : str) (nextIsValue : bool) (b : option buf) (maxlength : nat)
  : option (bool * option buf) :=
  match args with
  | [] => Some (nextIsValue, b)
  | a :: args' =>
      if nextIsValue then
        match b with
        | Some bb =>
            match a with
            | "-"%char :: _ => Some (true, b)
            | _ =>
                match maxlength with
                | O => None                     (* buffer[maxlength - 1] *)
                | S last =>
                    match strncpy bb a maxlength with
                    | None => None
                    | Some b1 => match poke b1 last NUL with
                                 | None => None
                                 | Some b2 => Some (true, Some b2)
                                 end
                    end
                end
            end
        | None => Some (true, None)
        end
      else find_arg args' name (str_eqb a name) b maxlength
  end.

Definition mm_GetCommandArgument (args : option (list str)) (name : str) (b : option buf)
           (maxlength : nat) : option (bool * option buf) :=
  let b0 := match b with
            | None => Some None
            | Some bb => match poke bb 0 NUL with Some b' => Some (Some b') | None => None end
            end in
  match b0 with
  | None => None
  | Some b1 =>
      match args with
      | None => Some (false, b1)
      | Some l => find_arg l name false b1 maxlength
      end
  end.

(** core/metamod_util.cpp 52-71: UTIL_GetExtension; result: the suffix after
    the dot.  [k] is i+1. *)
Fixpoint get_ext_loop (s : str) (len : nat) (k : nat) : option (option str) :=
  match k with
  | O => Some None
  | S i =>
      match nth_error s i with
      | None => None
      | Some c =>
          if Ascii.eqb c "/" || Ascii.eqb c "\" then Some None
          else if Ascii.eqb c "." && negb (i =? len - 1) then Some (Some (skipn (S i) s))
          else get_ext_loop s len i
      end
  end.
Definition UTIL_GetExtension (s : str) : option (option str) :=
  get_ext_loop s (length s) (length s).

(** core/metamod_util.cpp 345-359: UTIL_VerifySignature over the memory
    [mem] starting at the address; [None]: reads outside [mem]. *)
Fixpoint UTIL_VerifySignature (mem : list ascii) (sig : list ascii) (len : nat) : option bool :=
  match len with
  | O => Some true
  | S n =>
      match sig with
      | [] => None
      | s :: sig' =>
          if Ascii.eqb s "*" then UTIL_VerifySignature (tl mem) sig' n
          else match mem with
               | [] => None
               | m :: mem' => if Ascii.eqb m s then UTIL_VerifySignature mem' sig' n else Some false
               end
      end
  end.

(** loader/utility.cpp 636-671: mm_FindPattern.  One searchable region is a
    list of bytes, the result is the index of the region and the offset in it.
    [None] everywhere: a byte outside the region is read. *)
Fixpoint match_here (mem pat : list ascii) {struct pat} : option bool :=
  match pat with
  | [] => Some true
  | p :: pat' =>
      match mem with
      | [] => if Ascii.eqb p "*" then match_here [] pat' else None
      | m :: mem' => if negb (Ascii.eqb p "*") && negb (Ascii.eqb p m) then Some false
                     else match_here mem' pat'
      end
  end.

(** [n]: number of iterations, i.e. end - ptr where end = second - len
    (line 649-651): size - len when that is positive, otherwise none. *)
Fixpoint find_in_region (mem pat : list ascii) (off : nat) (n : nat) : option (option nat) :=
  match n with
  | O => Some None
  | S n' => match match_here mem pat with
            | None => None
            | Some true => Some (Some off)
            | Some false => find_in_region (tl mem) pat (S off) n'
            end
  end.

Fixpoint mm_FindPattern (regions : list (list ascii)) (pat : list ascii) (idx : nat)
  : option (option (nat * nat)) :=
  match regions with
  | [] => Some None
  | r :: rs =>
      match find_in_region r pat 0 (length r - length pat) with
      | None => None
      | Some (Some off) => Some (Some (idx, off))
      | Some None => mm_FindPattern rs pat (S idx)
      end
  end.
