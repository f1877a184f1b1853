(** Model of the list of user messages.  Source: /repo/core/provider/source/provider_source.cpp 510-611
    (Detour_Error, CacheUserMessages, GetUserMessageCount, FindUserMessage, GetUserMessage).

    The game is asked for message 0, 1, 2, ... until it says no.  Some games call the engine's Error for
    a number that is too big; so the first five bytes of Error are replaced by a jump to Detour_Error, which
    comes back with longjmp.

    The game is a list of answers ([game]) and what it does for the next number ([last]).  Memory is a function
    from addresses to bytes, of which only the code at [target] is written.  [w] is the width of a pointer
    (32 or 64).  Not modelled: SetMemAccess (its result is ignored by the code), what GetUserMessageInfo writes
    beyond the name and size of a message, objects whose destructors longjmp would skip (there are none in
    CacheUserMessages). *)
From Coq Require Import List ZArith Bool Ascii String.
Import ListNotations.
Local Open Scope Z_scope.

Definition mem := Z -> Z.
Definition set (m : mem) (a v : Z) : mem := fun x => if x =? a then v else m x.

(** memcpy of [n] bytes from memory, memcpy of bytes to memory (537, 549) *)
Fixpoint rd (m : mem) (a : Z) (n : nat) : list Z :=
  match n with O => [] | S n => m a :: rd m (a + 1) n end.
Fixpoint wr (m : mem) (a : Z) (l : list Z) : mem :=
  match l with [] => m | b :: l => wr (set m a b) (a + 1) l end.

(** the four bytes of an int32_t *)
Definition le4 (v : Z) : list Z := [v mod 256; v / 256 mod 256; v / 65536 mod 256; v / 16777216 mod 256].

(** 540-542: target[0] = 0xE9; the int32_t at target + 1 = (int32_t)(detour - (target + 5)): the difference of
    two pointers, the low 32 bits of it *)
Definition patch (m : mem) (target detour : Z) : mem :=
  wr m target (233 :: le4 ((detour - (target + 5)) mod 2 ^ 32)).

(** The processor's jump: E9 and four bytes, a signed distance from the next instruction *)
Definition sx32 (v : Z) : Z := if v <? 2 ^ 31 then v else v - 2 ^ 32.
Definition jump (w : Z) (m : mem) (a : Z) : option Z :=
  match rd m a 5 with
  | [op; b0; b1; b2; b3] =>
      if op =? 233 then Some ((a + 5 + sx32 (b0 + 256 * b1 + 65536 * b2 + 16777216 * b3)) mod 2 ^ w) else None
  | _ => None
  end.

Record umsg := Umsg { u_name : string; u_size : Z }.
Inductive ending := SaysNo | CallsError.

(** [Back]: setjmp returns a second time; [Lost a]: Error was called and the processor went to [a] *)
Inductive way := Back | Lost (a : option Z).

(** the loop, 559-563 *)
Fixpoint loop (game : list umsg) (l : list umsg) : list umsg :=
  match game with [] => l | u :: game => loop game (l ++ [Umsg (u_name u) (u_size u)]) end.

(** CacheUserMessages (528-568): the memory and the list afterwards *)
Definition CacheUserMessages (w : Z) (m : mem) (target detour : Z) (game : list umsg) (last : ending) (l : list umsg)
  : way * mem * list umsg :=
  let orig := rd m target 5 in
  let m1 := patch m target detour in
  let l1 := loop game l in
  match last with
  | SaysNo => (Back, wr m1 target orig, l1)
  | CallsError =>
      match jump w m1 target with
      | Some a => if a =? detour then (Back, wr m1 target orig, l1) else (Lost (Some a), m1, l1)
      | None => (Lost None, m1, l1)
      end
  end.

(** IsUserMessageIterationSupported: [sup] *)
(** GetUserMessageCount (570-576) *)
Definition GetUserMessageCount (sup : bool) (l : list umsg) : Z :=
  if negb sup then -1 else Z.of_nat (List.length l).
(** FindUserMessage (578-596): the result and what is stored in *size, if anything *)
Fixpoint find_from (name : string) (i : Z) (l : list umsg) : Z * option Z :=
  match l with
  | [] => (-1, None)
  | u :: l => if String.eqb (u_name u) name then (i, Some (u_size u)) else find_from name (i + 1) l
  end.
Definition FindUserMessage (sup : bool) (l : list umsg) (name : string) : Z * option Z :=
  if sup then find_from name 0 l else (-1, None).
(** GetUserMessage (598-611); [Some None] is the null pointer, [None] an access outside the vector *)
Definition GetUserMessage (sup : bool) (l : list umsg) (index : Z) : option (option (string * Z)) :=
  if negb sup || (index <? 0) || (Z.of_nat (List.length l) <=? index) then Some None
  else if index <? 0 then None
  else match nth_error l (Z.to_nat index) with
       | Some u => Some (Some (u_name u, u_size u))
       | None => None
       end.
