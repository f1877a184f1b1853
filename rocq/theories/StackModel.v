(** Model of SourceHook::CStack (core/sourcehook/sh_stack.h).

    The elements are in sectors (arrays of 16 slots); the heap maps addresses of
    sectors to their slots, a slot is [None] until something is written to it.
    The vector of sectors (CVector<T*>, see C27) is a sequence here.  Accesses
    to sectors that do not exist (not in the vector, or freed) give [None].

    Simplified: `new T[16]` succeeds and returns a free address [alloc h];
    constructors and destructors of T do nothing observable; operator= of T
    copies the slot (also if it was never written). *)
From Coq Require Import List ZArith Bool Arith.
From Verif Require Import ListModel.
Import ListNotations.
Local Open Scope Z_scope.

Section StackModel.
Context {T : Type}.

Definition sector := Z -> option T.
(** [klimit]: an address above all used ones *)
Record kheap := KHeap { kcells :> nat -> option sector; klimit : nat }.
Definition kset (h : kheap) (a : nat) (x : option sector) : kheap :=
  KHeap (mset h a x) (Nat.max (klimit h) (S a)).

Variable alloc : kheap -> nat.

(** m_Sectors, m_UsedSize (sh_stack.h:25-27) *)
Record stack := Stack { k_sectors : list nat; k_used : Z }.

(** SECTOR_SIZE (sh_stack.h:23) *)
Definition sector_size : Z := 16.
Definition wrap (x : Z) : Z := x mod 2 ^ 64.

(** the address of an element *)
Definition loc := (nat * Z)%type.

(** at (sh_stack.h:147-155) *)
Definition at_loc (k : stack) (x : Z) : option loc :=
  do a <- nth_error (k_sectors k) (Z.to_nat (x / sector_size)); Some (a, x mod sector_size).

Definition kread (h : kheap) (p : loc) : option (option T) := do f <- h (fst p); Some (f (snd p)).
Definition kwrite (h : kheap) (p : loc) (v : option T) : option kheap :=
  do f <- h (fst p); Some (kset h (fst p) (Some (fun j => if j =? snd p then v else f j))).

(** m_Sectors.push_back(new T[SECTOR_SIZE]) *)
Definition new_sector (h : kheap) (k : stack) : kheap * stack :=
  (kset h (alloc h) (Some (fun _ => None)), Stack (k_sectors k ++ [alloc h]) (k_used k)).

(** if ((m_UsedSize / SECTOR_SIZE) >= m_Sectors.size()) ... (sh_stack.h:159-163, 173-177) *)
Definition room (h : kheap) (k : stack) : kheap * stack :=
  if k_used k / sector_size >=? Z.of_nat (length (k_sectors k)) then new_sector h k else (h, k).

(** CStack() (sh_stack.h:112-114) *)
Definition stack0 : stack := Stack [] 0.

(** for (i = 0; i < SECTOR_SIZE; ++i) dst[i] = src[i] (sh_stack.h:122-123, 135-136) *)
Fixpoint copy_slots (n : nat) (h : kheap) (dst src : nat) (i : Z) : option kheap :=
  match n with
  | O => Some h
  | S n' => do c <- kread h (src, i); do h <- kwrite h (dst, i) c; copy_slots n' h dst src (i + 1)
  end.

(** the loop over the sectors of `other` (sh_stack.h:118-124, 131-137) *)
Fixpoint copy_sectors (h : kheap) (k : stack) (l : list nat) : option (kheap * stack) :=
  match l with
  | [] => Some (h, k)
  | src :: l' =>
      let dst := alloc h in
      let (h, k) := new_sector h k in
      do h <- copy_slots 16 h dst src 0;
      copy_sectors h k l'
  end.

(** CStack(const CStack &) (sh_stack.h:116-126) *)
Definition copy_stack (h : kheap) (o : stack) : option (kheap * stack) :=
  do (h, k) <- copy_sectors h stack0 (k_sectors o);
  Some (h, Stack (k_sectors k) (k_used o)).

(** delete [] of all sectors (sh_stack.h:31-35) *)
Fixpoint del_sectors (h : kheap) (l : list nat) : option kheap :=
  match l with
  | [] => Some h
  | a :: l' => match h a with Some _ => del_sectors (kset h a None) l' | None => None end
  end.

(** clear (sh_stack.h:29-37), also the destructor (142-145) *)
Definition clear_stack (h : kheap) (k : stack) : option (kheap * stack) :=
  do h <- del_sectors h (k_sectors k); Some (h, Stack [] (k_used k)).

(** operator= (sh_stack.h:128-140) for a different stack *)
Definition assign_stack (h : kheap) (k o : stack) : option (kheap * stack) :=
  do (h, k) <- clear_stack h k;
  do (h, k) <- copy_sectors h k (k_sectors o);
  Some (h, Stack (k_sectors k) (k_used o)).

(** operator= with the stack itself: the loop runs over its own, now empty, sectors *)
Definition self_assign_stack (h : kheap) (k : stack) : option (kheap * stack) :=
  do (h, k) <- clear_stack h k;
  copy_sectors h k (k_sectors k).

(** A `const T &` argument: a value outside of all stacks or an element. *)
Inductive ksrc := KVal (v : T) | KAt (p : loc).
Definition kget (h : kheap) (e : ksrc) : option T :=
  match e with
  | KVal v => Some v
  | KAt p => match kread h p with Some (Some v) => Some v | _ => None end
  end.

(** push (sh_stack.h:157-169) *)
Definition push_stack (h : kheap) (k : stack) (e : ksrc) : option (kheap * stack) :=
  let (h, k) := room h k in
  do p <- at_loc k (k_used k);
  do v <- kget h e;
  do h <- kwrite h p (Some v);
  Some (h, Stack (k_sectors k) (k_used k + 1)).

(** make_next (sh_stack.h:171-180) *)
Definition make_next_stack (h : kheap) (k : stack) : option (kheap * stack * loc) :=
  let (h, k) := room h k in
  do p <- at_loc k (k_used k);
  Some (h, Stack (k_sectors k) (k_used k + 1), p).

(** pop (sh_stack.h:182-185), popall (187-190) *)
Definition pop_stack (k : stack) : stack := Stack (k_sectors k) (wrap (k_used k - 1)).
Definition popall_stack (k : stack) : stack := Stack (k_sectors k) 0.

(** for (it = begin(); it != end(); ++it) *it (iterator, sh_stack.h:40-111, 212-219):
    the elements from index [x] on, [n] of them *)
Fixpoint iterate (n : nat) (h : kheap) (k : stack) (x : Z) : option (list T) :=
  if x =? k_used k then Some []
  else match n with
       | O => None
       | S n' => do p <- at_loc k x; do c <- kread h p; do c <- c; do l <- iterate n' h k (x + 1); Some (c :: l)
       end.

(** Programs. *)
Record ksys := KSys { k_heap : kheap; k_stacks : nat -> option stack }.

Inductive karg := KAVal (v : T) | KAElem (l : nat) (i : Z).

Inductive kop :=
| KNew (l : nat) | KCopy (l m : nat) | KAssign (l m : nat) | KDestroy (l : nat)
| KPush (l : nat) (a : karg) | KMakeNext (l : nat) | KPop (l : nat) | KPopAll (l : nat)
| KGet (l : nat) (i : Z) | KSet (l : nat) (i : Z) (v : T)
| KFront (l : nat) | KSecond (l : nat) | KIter (l : nat) | KSize (l : nat) | KEmpty (l : nat).

Inductive kres := KUnit | KValue (v : T) | KNum (n : Z) | KBool (b : bool) | KList (l : list T).

Definition karg_src (s : ksys) (a : karg) : option ksrc :=
  match a with
  | KAVal v => Some (KVal v)
  | KAElem l i => do k <- k_stacks s l; do p <- at_loc k i; Some (KAt p)
  end.

Definition kput (s : ksys) (l : nat) (p : option (kheap * stack)) : option (ksys * kres) :=
  do (h, k) <- p; Some (KSys h (mset (k_stacks s) l (Some k)), KUnit).

Definition kvalue (s : ksys) (p : option loc) : option (ksys * kres) :=
  do p <- p;
  match kread (k_heap s) p with Some (Some v) => Some (s, KValue v) | _ => None end.

Definition kstep (s : ksys) (o : kop) : option (ksys * kres) :=
  let h := k_heap s in
  match o with
  | KNew l => match k_stacks s l with None => kput s l (Some (h, stack0)) | Some _ => None end
  | KCopy l m => match k_stacks s l with
                 | None => do w <- k_stacks s m; kput s l (copy_stack h w)
                 | Some _ => None end
  | KAssign l m => do k <- k_stacks s l; do w <- k_stacks s m;
                   if (l =? m)%nat then kput s l (self_assign_stack h k) else kput s l (assign_stack h k w)
  | KDestroy l => do k <- k_stacks s l; do (h, _) <- clear_stack h k;
                  Some (KSys h (mset (k_stacks s) l None), KUnit)
  | KPush l a => do k <- k_stacks s l; do e <- karg_src s a; kput s l (push_stack h k e)
  | KMakeNext l => do k <- k_stacks s l; do (h, k, _) <- make_next_stack h k; kput s l (Some (h, k))
  | KPop l => do k <- k_stacks s l; kput s l (Some (h, pop_stack k))
  | KPopAll l => do k <- k_stacks s l; kput s l (Some (h, popall_stack k))
  | KGet l i => do k <- k_stacks s l; kvalue s (at_loc k i)
  | KSet l i v => do k <- k_stacks s l; do p <- at_loc k i; do h <- kwrite h p (Some v);
                  Some (KSys h (k_stacks s), KUnit)
  | KFront l => do k <- k_stacks s l; kvalue s (at_loc k (wrap (k_used k - 1)))   (* sh_stack.h:192-200 *)
  | KSecond l => do k <- k_stacks s l; kvalue s (at_loc k (wrap (k_used k - 2)))  (* sh_stack.h:202-210 *)
  | KIter l => do k <- k_stacks s l; do c <- iterate (S (Z.to_nat (k_used k))) h k 0; Some (s, KList c)
  | KSize l => do k <- k_stacks s l; Some (s, KNum (k_used k))           (* sh_stack.h:221-224 *)
  | KEmpty l => do k <- k_stacks s l; Some (s, KBool (k_used k =? 0))    (* sh_stack.h:225-228 *)
  end.

Definition ksys0 : ksys := KSys (KHeap (fun _ => None) 0%nat) (fun _ => None).

Fixpoint krun (s : ksys) (ops : list kop) : option (ksys * list kres) :=
  match ops with
  | [] => Some (s, [])
  | o :: l => do (s, r) <- kstep s o; do (s, rs) <- krun s l; Some (s, r :: rs)
  end.
End StackModel.

Definition kbounded {T} (h : @kheap T) : Prop := forall b, (klimit h <= b)%nat -> h b = None.
(** never returns NULL or a sector that is in use *)
Definition kallocator {T} (alloc : @kheap T -> nat) : Prop :=
  forall h, kbounded h -> alloc h <> 0%nat /\ h (alloc h) = None.
