(** Execution of the instructions used by trampolines (Intel SDM: E9 cd, REX.W B8+rd io, FF /4). *)
From Coq Require Import List ZArith Bool.
From Verif Require Import PageModel.
Import ListNotations.
Local Open Scope Z_scope.

(** reading an unsigned little-endian number of [n] bytes *)
Fixpoint rd (b : Z -> Z) (a : Z) (n : nat) : Z :=
  match n with O => 0 | S n => b a + 256 * rd b (a + 1) n end.
(** sign extension of 32 bits *)
Definition sext32 (x : Z) : Z := if x <? 2 ^ 31 then x else x - 2 ^ 32.

(** instruction fetch needs pages which are not writable (read + execute) *)
Definition fetchable (m : mach) (a n : Z) : Prop :=
  exists mp, In mp (maps m) /\ m_w mp = false /\ m_start mp <= a /\ a + n <= m_start mp + m_len mp.

(** One instruction: program counter and register rax *)
Inductive exec (m : mach) : Z * Z -> Z * Z -> Prop :=
| x_jmp (pc rax : Z) : fetchable m pc 5 -> bytes m pc = 233 (* E9 *) ->
    exec m (pc, rax) ((pc + 5 + sext32 (rd (bytes m) (pc + 1) 4)) mod 2 ^ 64, rax)
| x_mov (pc rax : Z) : fetchable m pc 10 -> bytes m pc = 72 (* 48 *) -> bytes m (pc + 1) = 184 (* B8 *) ->
    exec m (pc, rax) (pc + 10, rd (bytes m) (pc + 2) 8)
| x_jmprax (pc rax : Z) : fetchable m pc 2 -> bytes m pc = 255 (* FF *) -> bytes m (pc + 1) = 224 (* E0 *) ->
    exec m (pc, rax) (rax, rax).

(** Execution from [a] goes through code inside [a, a + 12) only and then reaches [target]. *)
Inductive leads (m : mach) (a target : Z) : Z * Z -> Prop :=
| ld_done (s s' : Z * Z) : a <= fst s < a + 12 -> exec m s s' -> fst s' = target -> leads m a target s
| ld_step (s s' : Z * Z) : a <= fst s < a + 12 -> exec m s s' -> leads m a target s' -> leads m a target s.

(** whatever rax holds when the trampoline is called *)
Definition jumps_to (m : mach) (a target : Z) : Prop := forall rax, leads m a target (a, rax).

(** What happens to trampolines: one is made for an original entry, the clean-up task of
    one runs, other code writes to writable memory. *)
Inductive top :=
| TInit (orig ans : Z)
| TCleanup (thunk : Z)
| TWrite (f : Z -> Z).
