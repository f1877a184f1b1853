(** What the reading of a VDF file should do. *)
From Coq Require Import List ZArith Bool.
From Verif Require Import KvModel.
Import ListNotations.
Local Open Scope Z_scope.

(** a file with the bytes [c] *)
Definition has_bytes (f : file) (c : list Z) : Prop :=
  (exists h, f_open f = Some h) /\ f_size f = Z.of_nat (length c) /\ f_read f (Z.of_nat (length c)) = c.
(** [s] is [c] up to the first NUL *)
Definition upto_nul (c s : list Z) : Prop :=
  ~ In 0 s /\ (c = s \/ exists r, c = s ++ 0 :: r).
(** what a table tells: the plugin's file and its alias *)
Definition tells (t : option table) : option (list Z * list Z) :=
  match t with
  | Some (Some p, Some a) => Some (p, a)
  | Some (Some p, None) => Some (p, [])
  | _ => None
  end.
(** everything that was taken has been given back: the same files are open, the scratch memory is free, the same KeyValues
    objects with the same contents exist, and of the new ones each was deleted exactly once *)
Definition given_back (w w' : world) : Prop :=
  handles w' = handles w /\ scratch w' = scratch w /\ objs w' = objs w /\
  (next w <= next w')%nat /\ exists l, gone w' = l ++ gone w /\ NoDup l /\ forall i, In i l <-> (next w <= i < next w')%nat.
(** the objects' numbers are below the next one *)
Definition sane (w : world) : Prop := scratch w = None /\ Forall (fun p => (fst p < next w)%nat) (objs w).
(** memory: MemAllocScratch gives as many bytes as asked for; a Read gives at most as many *)
Definition memory_ok (junk : Z -> list Z) : Prop := forall n, 0 <= n -> Z.of_nat (length (junk n)) = n.
Definition file_ok (f : file) : Prop := forall n, 0 <= n -> Z.of_nat (length (f_read f n)) <= n.
