(** Model of the interface name functions of core/metamod.cpp:
    FormatIface, InterfaceSearch and VInterfaceMatch.  [None] as a result of the
    buffer operations: the code would read or write outside the array, or
    overflow an int. *)
From Coq Require Import List ZArith Ascii Bool Arith.
From Verif Require Import ListModel StrModel.
Import ListNotations.
Local Open Scope list_scope.
Local Open Scope nat_scope.

(** isdigit *)
Definition isdigit (c : ascii) : bool :=
  let n := nat_of_ascii c in (48 <=? n) && (n <=? 57).

(** the bytes [l] written at index [i] of the array [b] *)
Definition put (b : buf) (i : nat) (l : str) : option buf :=
  if i + length l <=? length b then Some (firstn i b ++ l ++ skipn (i + length l) b) else None.

(** printf "%03d": decimal, padded with zeros to three characters; a minus sign
    counts as one of them. *)
Definition dig (z : Z) : ascii := ascii_of_nat (48 + Z.to_nat z).
Fixpoint dec (fuel : nat) (z : Z) (acc : str) : str :=
  match fuel with
  | 0 => acc
  | S f => if (z <? 10)%Z then dig z :: acc else dec f (z / 10)%Z (dig (z mod 10) :: acc)
  end.
Definition zeros (n : nat) (s : str) : str := repeat "0"%char (n - length s) ++ s.
Definition fmt03 (z : Z) : str :=
  if (z <? 0)%Z then "-"%char :: zeros 2 (dec 10 (- z) []) else zeros 3 (dec 10 z []).
(** snprintf (dst, 4, "%03d", z): at most three characters and the terminator *)
Definition snprintf3 (z : Z) : str := firstn 3 (fmt03 z) ++ [NUL].

(** atoi of a string of digits; [None]: not representable as int (undefined) *)
Definition INT_MAX : Z := 2147483647.
Definition atoi_digits (s : str) : option Z :=
  let v := fold_left (fun v c => 10 * v + (Z.of_nat (nat_of_ascii c) - 48))%Z s 0%Z in
  if (v <=? INT_MAX)%Z then Some v else None.

(** MetamodSource::FormatIface (core/metamod.cpp 653-686).
    [scan s n]: the loop 659-669 with i = n - 1: the index of the last character
    below [n] that is not a digit; [None]: i has wrapped around to SIZE_MAX. *)
Fixpoint scan (s : str) (n : nat) : option nat :=
  match n with
  | 0 => None
  | S i => if isdigit (nth i s NUL) then scan s i else Some i
  end.
(** i != length - 1, both size_t *)
Definition not_last (i : option nat) (length : nat) : bool :=
  match i with
  | Some i => negb (S i =? length)
  | None => negb (length =? 0)
  end.
Definition FormatIface (b : buf) (maxlength : nat) : option (buf * Z) :=
  do s <- cstr b ;
  let len := length s in
  let i := scan s len in
  let num := match i with Some _ => not_last i len | None => false end in   (* 659-669 *)
  if (num && (maxlength <=? len)) || (negb num && (maxlength <=? len + 3))  (* 671 *)
  then Some (b, (-1)%Z) else
  do at_ <- (if not_last i len                                              (* 676-679 *)
             then let j := match i with Some i => S i | None => 0 end in
                  do n <- atoi_digits (skipn j s) ; Some (j, n)
             else match i with Some i => Some (i, 0%Z) | None => None end) ;
  let '(j, n) := at_ in
  if (n =? INT_MAX)%Z then None else                                        (* 681 *)
  do b' <- put b j (snprintf3 (n + 1)) ;                                    (* 683 *)
  Some (b', (n + 1)%Z).

Section Search.
Variable ptr : Type.
(** The factory.  It may depend on everything it was asked before. *)
Variable fn : list str -> str -> option ptr.

Inductive outcome : Type :=
| UB                                        (* outside the array / int overflow *)
| Running                                   (* not finished within the fuel *)
| Done (pf : option ptr) (asked : list str).

(** The loop of InterfaceSearch (core/metamod.cpp 711-721); [fuel] bounds the
    number of iterations. *)
Fixpoint search_loop (fuel : nat) (b : buf) (len : nat) (max num : Z) (asked : list str) : outcome :=
  match fuel with
  | 0 => Running
  | S f =>
      match cstr b with
      | None => UB
      | Some s =>
          match fn asked s with
          | Some p => Done (Some p) (asked ++ [s])
          | None =>
              if (num >? max)%Z then Done None (asked ++ [s])
              else match FormatIface b (len + 1) with
                   | None => UB
                   | Some (b', n) =>
                       if (n =? 0)%Z then Done None (asked ++ [s])
                       else search_loop f b' len max n (asked ++ [s])
                   end
          end
      end
  end.

(** MetamodSource::InterfaceSearch (core/metamod.cpp 688-724); [g]: what the
    local array _if holds before strcpy. *)
Definition InterfaceSearch (fuel : nat) (g : buf) (iface : str) (max : Z) : outcome :=
  let len := length iface in
  let max := if (max >? 999)%Z then 999%Z else max in
  if (256 <? len + 4) then Done None []
  else match store_str g iface with
       | None => UB
       | Some b => search_loop fuel b len max 0 []
       end.

(** MetamodSource::VInterfaceMatch (core/metamod.cpp 726-764).
    [strip b i digits]: the loop 743-748 with ptr = &buffer[i - 1]. *)
Fixpoint strip (b : buf) (i digits : nat) : option (buf * nat) :=
  match i with
  | 0 => None
  | S j =>
      do c <- nth_error b j ;
      if isdigit c && (digits <=? 3)
      then do b' <- poke b j NUL ; strip b' j (S digits)
      else Some (b, digits)
  end.
(** The name handed to InterfaceSearch. *)
Definition match_name (g : buf) (iface : str) (min : Z) : option str :=
  do b <- store_str g iface ;
  if (min =? -1)%Z then cstr b
  else do bd <- strip b (length iface) 0 ;
       let '(b, digits) := bd in
       if negb (digits =? 3)
       then do b <- store_str b iface ; cstr b
       else let min := if (min =? 0)%Z then 1%Z else min in
            do s <- cstr b ;
            do b <- put b (length s) (snprintf3 min) ;
            cstr b.
Definition VInterfaceMatch (fuel : nat) (g1 g2 : buf) (iface : str) (min : Z) : outcome :=
  if (256 - 4 <? length iface) then Done None []
  else match match_name g1 iface min with
       | None => UB
       | Some name => InterfaceSearch fuel g2 name 999
       end.
End Search.
Arguments UB {ptr}. Arguments Running {ptr}. Arguments Done {ptr} _ _.
