(** Specification of code buffers: byte sequences; one of them is open for writing. *)
From Coq Require Import List ZArith Bool.
From Verif Require Import BufModel.
Import ListNotations.
Local Open Scope Z_scope.

(** little-endian encoding of [x] in [k] bytes: byte j has weight 256^j *)
Definition enc (k : nat) (x : Z) : list Z := map (fun j => (x / 256 ^ Z.of_nat j) mod 256) (seq 0 k).
Definition encode (p : payload) : list Z := match p with Raw l => l | Num k x => enc k x end.

(** the bytes at [off] replaced by [l] *)
Definition splice (c : list Z) (off : nat) (l : list Z) : list Z := firstn off c ++ l ++ skipn (off + length l) c.

Record sbuf := SB { s_cont : list (list Z); s_open : option nat }.
Definition put (c : list (list Z)) (i : nat) (x : list Z) : list (list Z) := firstn i c ++ x :: skipn (S i) c.

(** Allowed calls and their effect.  The buffer which was written last is open; SetRE closes.
    A write goes to the open buffer or starts an empty one. *)
Inductive bspec : sbuf -> bop -> sbuf -> Prop :=
| s_push (s : sbuf) (i : nat) (p : payload) (ans : Z) (c : list Z) :
    nth_error (s_cont s) i = Some c -> s_open s = Some i \/ c = [] -> encode p <> [] ->
    Z.of_nat (length c + length (encode p)) < 2 ^ 31 ->
    bspec s (BPush i p ans) (SB (put (s_cont s) i (c ++ encode p)) (Some i))
| s_rewrite (s : sbuf) (i : nat) (off : nat) (p : payload) (c : list Z) :
    nth_error (s_cont s) i = Some c -> s_open s = Some i -> (off + length (encode p) <= length c)%nat ->
    bspec s (BRewrite i (Z.of_nat off) p) (SB (put (s_cont s) i (splice c off (encode p))) (s_open s))
| s_clear (s : sbuf) (i : nat) (c : list Z) : nth_error (s_cont s) i = Some c ->
    bspec s (BClear i) (SB (put (s_cont s) i []) (if match s_open s with Some j => Nat.eqb i j | None => false end then None else s_open s))
| s_setre (s : sbuf) (i : nat) (c : list Z) : nth_error (s_cont s) i = Some c ->
    bspec s (BSetRE i) (SB (s_cont s) None).
