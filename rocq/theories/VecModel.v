(** Model of SourceHook::CVector (core/sourcehook/sh_vector.h).

    The heap maps addresses of arrays (0 is NULL) to arrays; a slot of an array
    holds no value ([None]: not initialised) or a value of type [T].  Reading or
    writing outside an array, reading a slot without a value, using a freed
    array, and a failing assert give [None].

    Simplified: `new T[n]` succeeds and returns the address [alloc h] (any
    function that gives a free address); constructors and destructors of T do
    nothing observable; operator= of T copies the value.  Sizes are unbounded
    integers except where the code subtracts from a possible 0 (pop_back). *)
From Coq Require Import List ZArith Bool Arith.
From Verif Require Import ListModel.
Import ListNotations.
Local Open Scope Z_scope.

Section VecModel.
Context {T : Type}.

Record block := Block { b_len : Z; b_at : Z -> option T }.
(** [limit] is an address above all used ones: only finitely many are in use. *)
Record vheap := VHeap { cells :> nat -> option block; limit : nat }.
Definition hset (h : vheap) (b : nat) (x : option block) : vheap :=
  VHeap (mset h b x) (Nat.max (limit h) (S b)).

Variable alloc : vheap -> nat.

(** m_Data, m_Size, m_CurrentUsedSize (sh_vector.h:136-138) *)
Record vec := Vec { m_data : nat; m_size : Z; m_used : Z }.

Definition size_max : Z := 2 ^ 64.

Definition rd (h : vheap) (b : nat) (i : Z) : option T :=
  do blk <- h b;
  if (0 <=? i) && (i <? b_len blk) then b_at blk i else None.

Definition wr (h : vheap) (b : nat) (i : Z) (v : T) : option vheap :=
  do blk <- h b;
  if (0 <=? i) && (i <? b_len blk)
  then Some (hset h b (Some (Block (b_len blk) (fun j => if j =? i then Some v else b_at blk j))))
  else None.

(** new T[n] *)
Definition new_arr (h : vheap) (n : Z) : vheap * nat :=
  (hset h (alloc h) (Some (Block n (fun _ => None))), alloc h).

(** delete [] p *)
Definition del_arr (h : vheap) (b : nat) : option vheap :=
  match h b with Some _ => Some (hset h b None) | None => None end.

(** for (i = i0; i < i0 + n; i++) dst[i] = src[i] (sh_vector.h:44-47, 93-96, 299-300, 313-314) *)
Fixpoint copy_loop (n : nat) (h : vheap) (dst src : nat) (i : Z) : option vheap :=
  match n with
  | O => Some h
  | S n' => do x <- rd h src i; do h' <- wr h dst i x; copy_loop n' h' dst src (i + 1)
  end.

(** while (need > newSize) newSize *= 2 (sh_vector.h:33-36) *)
Fixpoint grow_size (fuel : nat) (need newSize : Z) : option Z :=
  match fuel with
  | O => None
  | S f => if need >? newSize then grow_size f need (newSize * 2) else Some newSize
  end.

(** Grow (sh_vector.h:23-54) *)
Definition grow (h : vheap) (v : vec) (amount : Z) : option (vheap * vec) :=
  let newSize := m_size v * 2 in
  let newSize := if newSize =? 0 then 8 else newSize in
  do newSize <- grow_size (S (Z.to_nat (m_used v + amount))) (m_used v + amount) newSize;
  let (h, newData) := new_arr h newSize in
  do h <- (if (m_data v =? 0)%nat then Some h
           else do h <- copy_loop (Z.to_nat (m_used v)) h newData (m_data v) 0;
                del_arr h (m_data v));
  Some (h, Vec newData newSize (m_used v)).

(** GrowIfNeeded (sh_vector.h:56-66) *)
Definition grow_if_needed (h : vheap) (v : vec) (amount : Z) : option (vheap * vec) :=
  if m_used v + amount >=? m_size v then grow h v amount else Some (h, v).

(** ChangeSize (sh_vector.h:68-108) *)
Definition change_size (h : vheap) (v : vec) (size : Z) : option (vheap * vec) :=
  if size =? m_size v then Some (h, v)
  else if size =? 0 then
    if (m_data v =? 0)%nat then Some (h, v)
    else do h <- del_arr h (m_data v); Some (h, Vec 0%nat 0 (m_used v))
  else
    let (h, newData) := new_arr h size in
    do h <- (if (m_data v =? 0)%nat then Some h
             else let e := if m_used v <? size then m_used v else size in
                  do h <- copy_loop (Z.to_nat e) h newData (m_data v) 0;
                  del_arr h (m_data v));
    Some (h, Vec newData size (if m_used v >? size then size else m_used v)).

(** while (m_CurrentUsedSize <= newSize / 2) newSize /= 2 (sh_vector.h:123-127) *)
Fixpoint shrink_size (fuel : nat) (used newSize : Z) : option Z :=
  match fuel with
  | O => None
  | S f => if used <=? newSize / 2 then shrink_size f used (newSize / 2) else Some newSize
  end.

(** FreeMemIfPossible (sh_vector.h:110-133) *)
Definition free_mem (h : vheap) (v : vec) : option (vheap * vec) :=
  if (m_data v =? 0)%nat then Some (h, v)
  else if m_used v =? 0 then change_size h v 0
  else
    do newSize <- shrink_size (S (Z.to_nat (m_size v))) (m_used v) (m_size v);
    if newSize =? m_size v then Some (h, v) else change_size h v newSize.

(** CVector() (sh_vector.h:286-291) *)
Definition vec0 : vec := Vec 0%nat 0 0.

(** CVector(const CVector &) (sh_vector.h:293-301) *)
Definition copy_ctor (h : vheap) (o : vec) : option (vheap * vec) :=
  let (h, d) := new_arr h (m_used o) in
  do h <- copy_loop (Z.to_nat (m_used o)) h d (m_data o) 0;
  Some (h, Vec d (m_used o) (m_used o)).

(** clear (sh_vector.h:507-516) and the destructor (303-306) *)
Definition clear_vec (h : vheap) (v : vec) : option (vheap * vec) :=
  if (m_data v =? 0)%nat then Some (h, Vec 0%nat 0 0)
  else do h <- del_arr h (m_data v); Some (h, Vec 0%nat 0 0).

(** operator= (sh_vector.h:308-316) between different vectors *)
Definition assign_vec (h : vheap) (v o : vec) : option (vheap * vec) :=
  do (h, v) <- clear_vec h v;
  do (h, v) <- change_size h v (m_used o);
  do h <- copy_loop (Z.to_nat (m_used o)) h (m_data v) (m_data o) 0;
  Some (h, Vec (m_data v) (m_size v) (m_used o)).

(** operator= with the vector itself: `other` is the vector being changed *)
Definition self_assign (h : vheap) (v : vec) : option (vheap * vec) :=
  do (h, v) <- clear_vec h v;
  do (h, v) <- change_size h v (m_used v);
  do h <- copy_loop (Z.to_nat (m_used v)) h (m_data v) (m_data v) 0;
  Some (h, v).

(** reserve (sh_vector.h:346-351) *)
Definition reserve (h : vheap) (v : vec) (n : Z) : option (vheap * vec) :=
  if n >? m_size v then change_size h v n else Some (h, v).

(** A `const T &` argument: a value outside of all vectors, or slot [i] of the
    array [b].  It is read when the code uses it. *)
Inductive src := Val (v : T) | At (b : nat) (i : Z).
Definition get_src (h : vheap) (a : src) : option T :=
  match a with Val v => Some v | At b i => rd h b i end.

(** push_back (sh_vector.h:353-363) *)
Definition push_vec (h : vheap) (v : vec) (e : src) : option (vheap * vec) :=
  do (h, v) <- grow_if_needed h v 1;
  do x <- get_src h e;
  do h <- wr h (m_data v) (m_used v) x;
  Some (h, Vec (m_data v) (m_size v) (m_used v + 1)).

(** pop_back (sh_vector.h:365-372); `m_CurrentUsedSize < 0` is never true *)
Definition pop_vec (h : vheap) (v : vec) : option (vheap * vec) :=
  free_mem h (Vec (m_data v) (m_size v) ((m_used v - 1) mod size_max)).

(** for (i = i0; i < i0 + n; ++i) m_Data[i] = defval (sh_vector.h:383-384) *)
Fixpoint fill_loop (n : nat) (h : vheap) (b : nat) (i : Z) (x : T) : option vheap :=
  match n with
  | O => Some h
  | S n' => do h' <- wr h b i x; fill_loop n' h' b (i + 1) x
  end.

(** resize (sh_vector.h:379-387) *)
Definition resize_vec (h : vheap) (v : vec) (n : Z) (x : T) : option (vheap * vec) :=
  do (h, v) <- change_size h v n;
  do h <- fill_loop (Z.to_nat (n - m_used v)) h (m_data v) (m_used v) x;
  Some (h, Vec (m_data v) (m_size v) n).

(** at, operator[] (sh_vector.h:394-420): the reference, read or written by the caller *)
Definition at_idx (v : vec) (i : Z) : option Z := if i >? m_used v then None else Some i.

(** for (ptr = m_Data + p; ptr >= where; --ptr) ptr[1] = ptr[0] (sh_vector.h:474-475),
    [n] rounds *)
Fixpoint move_up (n : nat) (h : vheap) (b : nat) (p : Z) : option vheap :=
  match n with
  | O => Some h
  | S n' => do x <- rd h b p; do h' <- wr h b (p + 1) x; move_up n' h' b (p - 1)
  end.

(** insert (sh_vector.h:458-482) at m_Data + i; the returned iterator as an offset
    from begin(), [None] for iterator(0) *)
Definition insert_vec (h : vheap) (v : vec) (i : Z) (e : src) : option (vheap * vec * option Z) :=
  if (i <? 0) || (i >? m_used v) then Some (h, v, None)
  else
    do (h, v) <- grow_if_needed h v 1;
    let v := Vec (m_data v) (m_size v) (m_used v + 1) in
    do h <- move_up (Z.to_nat (m_used v - 1 - i)) h (m_data v) (m_used v - 2);
    do x <- get_src h e;
    do h <- wr h (m_data v) i x;
    Some (h, v, Some i).

(** for (ptr = m_Data + p; ptr < end; ++ptr) ptr[-1] = ptr[0] (sh_vector.h:494-496), [n] rounds *)
Fixpoint move_down (n : nat) (h : vheap) (b : nat) (p : Z) : option vheap :=
  match n with
  | O => Some h
  | S n' => do x <- rd h b p; do h' <- wr h b (p - 1) x; move_down n' h' b (p + 1)
  end.

(** erase (sh_vector.h:484-505) at m_Data + i *)
Definition erase_vec (h : vheap) (v : vec) (i : Z) : option (vheap * vec * option Z) :=
  if (i <? 0) || (i >=? m_used v) then Some (h, v, None)
  else
    do h <- (if m_used v >? 1 then move_down (Z.to_nat (m_used v - (i + 1))) h (m_data v) (i + 1) else Some h);
    do (h, v) <- free_mem h (Vec (m_data v) (m_size v) (m_used v - 1));
    Some (h, v, Some i).

(** Programs: any number of vectors, named by numbers. *)
Record vsys := VSys { v_heap : vheap; v_vecs : nat -> option vec }.

(** arguments: a value, or a reference to element [i] of the vector [l] *)
Inductive arg := AVal (v : T) | AElem (l : nat) (i : Z).

Inductive vop :=
| VNew (l : nat) | VCopy (l m : nat) | VAssign (l m : nat) | VDestroy (l : nat)
| VPush (l : nat) (a : arg) | VPop (l : nat) | VResize (l : nat) (n : Z) (v : T)
| VReserve (l : nat) (n : Z) | VInsert (l : nat) (i : Z) (a : arg) | VErase (l : nat) (i : Z)
| VClear (l : nat) | VGet (l : nat) (i : Z) | VSet (l : nat) (i : Z) (v : T)
| VFront (l : nat) | VBack (l : nat) | VSize (l : nat) | VEmpty (l : nat).

Inductive vres := VUnit | VVal (v : T) | VNum (n : Z) | VBool (b : bool) | VIter (i : option Z).

Definition arg_src (s : vsys) (a : arg) : option src :=
  match a with
  | AVal v => Some (Val v)
  | AElem l i => do v <- v_vecs s l; do j <- at_idx v i; Some (At (m_data v) j)
  end.

Definition put (s : vsys) (l : nat) (p : option (vheap * vec)) : option (vsys * vres) :=
  do (h, v) <- p; Some (VSys h (mset (v_vecs s) l (Some v)), VUnit).

Definition vstep (s : vsys) (o : vop) : option (vsys * vres) :=
  let h := v_heap s in
  match o with
  | VNew l => match v_vecs s l with None => put s l (Some (h, vec0)) | Some _ => None end
  | VCopy l m => match v_vecs s l with
                 | None => do w <- v_vecs s m; put s l (copy_ctor h w)
                 | Some _ => None end
  | VAssign l m => do v <- v_vecs s l; do w <- v_vecs s m;
                   if (l =? m)%nat then put s l (self_assign h v) else put s l (assign_vec h v w)
  | VDestroy l => do v <- v_vecs s l; do (h, _) <- clear_vec h v;
                  Some (VSys h (mset (v_vecs s) l None), VUnit)
  | VPush l a => do v <- v_vecs s l; do e <- arg_src s a; put s l (push_vec h v e)
  | VPop l => do v <- v_vecs s l; put s l (pop_vec h v)
  | VResize l n x => do v <- v_vecs s l; if n <? 0 then None else put s l (resize_vec h v n x)
  | VReserve l n => do v <- v_vecs s l; if n <? 0 then None else put s l (reserve h v n)
  | VInsert l i a => do v <- v_vecs s l; do e <- arg_src s a; do (h, v, r) <- insert_vec h v i e;
                     Some (VSys h (mset (v_vecs s) l (Some v)), VIter r)
  | VErase l i => do v <- v_vecs s l; do (h, v, r) <- erase_vec h v i;
                  Some (VSys h (mset (v_vecs s) l (Some v)), VIter r)
  | VClear l => do v <- v_vecs s l; put s l (clear_vec h v)
  | VGet l i => do v <- v_vecs s l; do j <- at_idx v i; do x <- rd h (m_data v) j; Some (s, VVal x)
  | VSet l i x => do v <- v_vecs s l; do j <- at_idx v i; do h <- wr h (m_data v) j x;
                  Some (VSys h (v_vecs s), VUnit)
  | VFront l => do v <- v_vecs s l; (* sh_vector.h:422-438 *)
                if m_used v <? 1 then None else do x <- rd h (m_data v) 0; Some (s, VVal x)
  | VBack l => do v <- v_vecs s l; (* sh_vector.h:440-456 *)
               if m_used v <? 1 then None else do x <- rd h (m_data v) (m_used v - 1); Some (s, VVal x)
  | VSize l => do v <- v_vecs s l; Some (s, VNum (m_used v)) (* sh_vector.h:319-322 *)
  | VEmpty l => do v <- v_vecs s l; Some (s, VBool (m_used v =? 0)) (* sh_vector.h:389-392 *)
  end.

Definition vsys0 : vsys := VSys (VHeap (fun _ => None) 0%nat) (fun _ => None).

Fixpoint vrun (s : vsys) (ops : list vop) : option (vsys * list vres) :=
  match ops with
  | [] => Some (s, [])
  | o :: l => do (s, r) <- vstep s o; do (s, rs) <- vrun s l; Some (s, r :: rs)
  end.
End VecModel.

(** An allocator never returns NULL or memory that is in use. *)
Definition bounded {T} (h : @vheap T) : Prop := forall b, (limit h <= b)%nat -> h b = None.
Definition allocator {T} (alloc : @vheap T -> nat) : Prop :=
  forall h, bounded h -> alloc h <> 0%nat /\ h (alloc h) = None.
