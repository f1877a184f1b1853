(** What a plugin is told when it is created.
    Modelled: core/metamod_plugins.cpp 58-68 (GlobVersionInfo), 471-528 (the part of
    _Load that calls CreateInterface_MMS, with the further tries for Valve's games),
    core/metamod.cpp 771-787 (PathFormat), core/metamod_util.cpp 178-189
    (UTIL_FormatArgs) with the format "%s", core/metamod_oslink.h 49-50, 53, 69-70, 78 (the
    separators).
    The plugin's own function is an argument.  [None]: memory outside of an array or of
    a text is touched. *)
From Coq Require Import List ZArith Bool.
Import ListNotations.
Local Open Scope Z_scope.
Notation length := List.length.

Definition text := list Z.
Definition SLASH : Z := 47.
Definition BACKSLASH : Z := 92.
(** metamod_oslink.h 49-50 and 69-70. *)
Definition PATH_SEP (win : bool) : Z := if win then BACKSLASH else SLASH.
Definition ALT_SEP (win : bool) : Z := if win then SLASH else BACKSLASH.
(** 53 and 78. *)
Definition is_sep (win : bool) (c : Z) : bool :=
  if win then (c =? SLASH) || (c =? BACKSLASH) else c =? SLASH.

Definition N256 : nat := 256.

(** vsnprintf into an array of [n] bytes with old contents [old], and the test of
    metamod_util.cpp 182-186; the array and the number that is answered. *)
Definition format (old : text) (n : nat) (t : text) : text * nat :=
  let k := Nat.min (length t) (n - 1) in
  (firstn k t ++ 0 :: skipn (S k) old, k).

(** metamod.cpp 778-784. *)
Definition fix_seps (win : bool) (k : nat) (b : text) : text :=
  map (fun c => if c =? ALT_SEP win then PATH_SEP win else c) (firstn k b) ++ skipn k b.

Fixpoint put (b : text) (i : nat) (c : Z) : text :=
  match b, i with
  | [], _ => []
  | _ :: b, O => c :: b
  | x :: b, S i => x :: put b i c
  end.

(** metamod_plugins.cpp 492-499: from the end to the last separator; [n] is i + 1. *)
Fixpoint cut (win : bool) (n : nat) (b : text) : option text :=
  match n with
  | O => Some b
  | S i => match nth_error b i with
           | None => None
           | Some c => if is_sep win c then Some (put b i 0) else cut win i b
           end
  end.

(** 488-503: the text of info.pl_path. *)
Definition file_path (win : bool) (old file : text) : option text :=
  let '(b, k) := format old N256 file in
  cut win k (fix_seps win k b).

(** The C text in an array. *)
Fixpoint ctext (b : text) : option text :=
  match b with
  | [] => None
  | c :: b => if c =? 0 then Some [] else option_map (cons c) (ctext b)
  end.

(** strrchr(base, sep) + 1; [None]: there is no separator and the address is NULL + 1. *)
Fixpoint after_last (sep : Z) (base : text) (best : option text) : option text :=
  match base with
  | [] => best
  | c :: r => after_last sep r (if c =? sep then Some r else best)
  end.

(** GlobVersionInfo: source_engine and game_dir ([None]: NULL). *)
Record glob := Glob { g_engine : Z; g_dir : option text }.
Definition glob0 : glob := Glob 0 None.

(** One call of CreateInterface_MMS: what the plugin reads in the two structures. *)
Record call := Call { k_engine : Z; k_dir : text; k_file : text; k_path : text }.

Definition ORANGEBOXVALVE_DEPRECATED : Z := 6.
Definition ORANGEBOX : Z := 3.

(** 476-527: [valve]: the build is one for CSS, HL2DM, DODS or TF2 (508); [build] is
    GetSourceEngineBuild, [base] is GetBaseDir, [make] is the plugin's function (0 is NULL). *)
Definition create (win valve : bool) (build : Z) (base old file : text) (make : call -> Z) (g : glob)
  : option (glob * list call * Z) :=
  let e := if g_engine g =? 0 then build else g_engine g in                    (* 476-479 *)
  match (match g_dir g with                                                     (* 480-486 *)
         | Some d => Some d
         | None => after_last (PATH_SEP win) base None
         end) with
  | None => None
  | Some d =>
      match (match file_path win old file with Some b => ctext b | None => None end) with
      | None => None
      | Some p =>
          let c1 := Call e d file p in
          let a1 := make c1 in                                                  (* 505 *)
          if valve && (a1 =? 0) then                                            (* 508-521 *)
            let c2 := Call ORANGEBOXVALVE_DEPRECATED d file p in
            let a2 := make c2 in
            if a2 =? 0 then
              let c3 := Call ORANGEBOX d file p in
              Some (Glob build (Some d), [c1; c2; c3], make c3)
            else Some (Glob build (Some d), [c1; c2], a2)
          else Some (Glob e (Some d), [c1], a1)
      end
  end.

(** A plugin to be created: the old contents of the array, its file, its function. *)
Record plugin := Plugin { q_old : text; q_file : text; q_make : call -> Z }.

Fixpoint creates (win valve : bool) (build : Z) (base : text) (l : list plugin) (g : glob)
  : option (glob * list (list call * Z)) :=
  match l with
  | [] => Some (g, [])
  | q :: r =>
      match create win valve build base (q_old q) (q_file q) (q_make q) g with
      | None => None
      | Some (g1, cs, a) =>
          match creates win valve build base r g1 with
          | None => None
          | Some (g2, rest) => Some (g2, (cs, a) :: rest)
          end
      end
  end.
