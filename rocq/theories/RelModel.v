(** Model of UTIL_BadRelatize, UTIL_Relatize2 and UTIL_Relatize (core/metamod_util.cpp),
    POSIX build.  Strings are the characters before the terminator; the buffer is
    represented by its size [maxlen] and by the text that is left in it. *)
From Coq Require Import List Bool Arith Ascii.
From Verif Require Import StrModel.
Import ListNotations.
Open Scope char_scope.
Open Scope nat_scope.

Definition is_sepb (c : ascii) : bool := Ascii.eqb c SEP.
(** pathstr_isabsolute (metamod_util.cpp:205-214) *)
Definition isabsolute (s : str) : bool := match s with c :: _ => is_sepb c | [] => false end.

(** the loop which looks for the common root (metamod_util.cpp:273-290) *)
Fixpoint common_root (relTo relFrom : str) (root : option (str * str)) : option (str * str) :=
  match relTo, relFrom with
  | a :: relTo', b :: relFrom' =>
      if is_sepb a && is_sepb b then common_root relTo' relFrom' (Some (relTo, relFrom))
      else if negb (Ascii.eqb a b) then root
      else common_root relTo' relFrom' root
  | _, _ => root
  end.

(** the loop which counts levels (metamod_util.cpp:309-325) *)
Fixpoint count_levels (s : str) : nat :=
  match s with
  | [] => 0
  | c :: s' => if is_sepb c then match s' with [] => 0 | _ => S (count_levels s') end else count_levels s'
  end.

(** the loop which writes "../" (metamod_util.cpp:330-340): text so far, [None]: no space *)
Fixpoint write_ups (n : nat) (text : str) (maxlen : nat) : option str :=
  match n with
  | O => Some text
  | S n => if 3 <? maxlen - length text then write_ups n (text ++ ["."; "."; SEP]) maxlen else None
  end.

(** UTIL_BadRelatize (metamod_util.cpp:242-350); [None]: returned false *)
Definition bad_relatize (maxlen : nat) (relTo relFrom : str) : option str :=
  if negb (isabsolute relTo) || negb (isabsolute relFrom) then None
  else
    match common_root relTo relFrom None with
    | Some (rootTo, rootFrom) =>
        let levels := match tl rootTo with [] => 0 | _ => count_levels rootTo end in
        match write_ups levels [] maxlen with
        | Some text => if length (tl rootFrom) <? maxlen - length text then Some (text ++ tl rootFrom) else None
        | None => None
        end
    | None => None
    end.

(** SplitPath (metamod_util.cpp:375-406) *)
Fixpoint take_part (s : str) : str * str :=
  match s with
  | [] => ([], [])
  | c :: s' => if is_sepb c then ([], s) else let '(a, b) := take_part s' in (c :: a, b)
  end.
Fixpoint split_loop (fuel : nat) (s : str) : option (list str) :=
  match s, fuel with
  | [], _ => Some []
  | _, O => None
  | _, S fuel =>
      let '(part, rest) := take_part s in
      match split_loop fuel (skip_sep rest) with
      | Some l => Some (match part with [] => l | _ => part :: l end)
      | None => None
      end
  end.
Definition split_path (s : str) : option (list str) :=
  match s with
  | c :: _ => if is_sepb c then match split_loop (S (length s)) (skip_sep s) with Some l => Some ([SEP] :: l) | None => None end
              else split_loop (S (length s)) s
  | [] => Some []
  end.

(** the loop which skips identical parts (metamod_util.cpp:419-425), as the two remainders *)
Fixpoint skip_same (a b : list str) : list str * list str :=
  match a, b with
  | x :: a', y :: b' => if str_eqb x y then skip_same a' b' else (a, b)
  | _, _ => (a, b)
  end.
(** the loop over the parts of the second path (metamod_util.cpp:430-434) *)
Fixpoint join_parts (l : list str) : str :=
  match l with [] => [] | [x] => x | x :: l => x ++ [SEP] ++ join_parts l end.
Definition ends_sep (s : str) : bool := match rev s with c :: _ => is_sepb c | [] => false end.

(** new_path of UTIL_Relatize2 (metamod_util.cpp:427-436) *)
Definition new_path (r1 r2 : list str) (path2 : str) : str :=
  flat_map (fun _ => ["."; "."; SEP]) r1 ++ join_parts r2 ++ (if ends_sep path2 then [SEP] else []).

(** UTIL_Relatize2 (metamod_util.cpp:408-440); [None]: undefined behaviour, [Some None]: false.
    snprintf cuts the text off at maxlen - 1 characters. *)
Definition relatize2 (maxlen : nat) (path1 path2 : str) : option (option str) :=
  match split_path path1, split_path path2 with
  | Some (x :: p1), Some (y :: p2) =>
      if str_eqb x y then let '(r1, r2) := skip_same p1 p2 in Some (Some (firstn (maxlen - 1) (new_path r1 r2 path2)))
      else Some None
  | _, _ => None
  end.

(** UTIL_Relatize (metamod_util.cpp:450-457); [path_exists]: what PathExists answers *)
Definition relatize (path_exists : str -> bool) (maxlen : nat) (relTo relFrom : str) : option (option str) :=
  match bad_relatize maxlen relTo relFrom with
  | Some text => if path_exists text then Some (Some text) else relatize2 maxlen relTo relFrom
  | None => relatize2 maxlen relTo relFrom
  end.
