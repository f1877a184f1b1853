(** Model of SourceHook::List: a circular doubly linked list with a sentinel.
    Source: /repo/core/sourcehook/sh_list.h.
    All lists live in one heap.  The addresses returned by malloc / operator new
    are arguments of the operations.  [None]: undefined behaviour (access to a
    NULL pointer, to freed memory, to the object of the sentinel, [delete] of
    the sentinel), or an address that malloc cannot return. *)
From Coq Require Import List ZArith Bool Arith.
Import ListNotations.
Local Open Scope nat_scope.

Notation "'do' x <- a ; b" := (match a with Some x => b | None => None end)
  (at level 200, x pattern, a at level 100, b at level 200, right associativity).

(** Partial functions as memories. *)
Definition mset {A} (m : nat -> option A) (k : nat) (v : option A) : nat -> option A :=
  fun x => if x =? k then v else m x.

Section ListModel.
Context {T : Type}.
(** operator== and operator< of the elements *)
Variable eqb : T -> T -> bool.
Variable ltb : T -> T -> bool.

(** sh_list.h 48-56: ListNode; the sentinel is malloc'ed and has no object. *)
Record node := Node { n_obj : option T; n_next : nat; n_prev : nat }.
Definition heap := nat -> option node.
(** 153-154: the members m_Head, m_Size *)
Record lobj := LObj { l_head : nat; l_size : Z }.

Definition set_next (h : heap) (p q : nat) : option heap :=
  do n <- h p; Some (mset h p (Some (Node (n_obj n) q (n_prev n)))).
Definition set_prev (h : heap) (p q : nat) : option heap :=
  do n <- h p; Some (mset h p (Some (Node (n_obj n) (n_next n) q))).
Definition get_next (h : heap) (p : nat) : option nat := do n <- h p; Some (n_next n).
Definition get_prev (h : heap) (p : nat) : option nat := do n <- h p; Some (n_prev n).
(** 207-223: dereferencing an iterator *)
Definition get_obj (h : heap) (p : nat) : option T := do n <- h p; n_obj n.

(** malloc / operator new: any address that is not NULL and not in use.  The
    members of a new node are indeterminate (0 here). *)
Definition alloc (h : heap) (a : nat) (o : option T) : option heap :=
  if a =? 0 then None
  else match h a with
       | Some _ => None
       | None => Some (mset h a (Some (Node o 0 0)))
       end.
(** delete: the node of an element *)
Definition delete (h : heap) (a : nat) : option heap :=
  do n <- h a; do v <- n_obj n; Some (mset h a None).

(** 60-66, 68-70: List() *)
Definition new_list (h : heap) (a : nat) : option (heap * lobj) :=
  do h1 <- alloc h a None;
  do h2 <- set_next h1 a a;
  do h3 <- set_prev h2 a a;
  Some (h3, LObj a 0).

(** 88-98: push_back *)
Definition push_back (h : heap) (l : lobj) (v : T) (a : nat) : option (heap * lobj) :=
  do h1 <- alloc h a (Some v);
  do p <- get_prev h1 (l_head l);
  do h2 <- set_prev h1 a p;
  do h3 <- set_next h2 a (l_head l);
  do p' <- get_prev h3 (l_head l);
  do h4 <- set_next h3 p' a;
  do h5 <- set_prev h4 (l_head l) a;
  Some (h5, LObj (l_head l) (l_size l + 1)).

(** 267-282: insert *)
Definition insert (h : heap) (l : lobj) (w : nat) (v : T) (a : nat) : option (heap * lobj * nat) :=
  do h1 <- alloc h a (Some v);
  do p <- get_prev h1 w;
  do h2 <- set_next h1 p a;
  do p' <- get_prev h2 w;
  do h3 <- set_prev h2 a p';
  do h4 <- set_prev h3 w a;
  do h5 <- set_next h4 a w;
  Some (h5, LObj (l_head l) (l_size l + 1), a).

(** 100-103: push_front *)
Definition push_front (h : heap) (l : lobj) (v : T) (a : nat) : option (heap * lobj) :=
  do b <- get_next h (l_head l);
  do (h1, l1, _) <- insert h l b v a;
  Some (h1, l1).

(** The loops over a list are run with as many iterations as the list has
    elements, and one more for the last test. *)
Definition fuel (l : lobj) : nat := S (Z.to_nat (l_size l)).

(** 105-117: push_sorted *)
Fixpoint push_sorted_loop (n : nat) (h : heap) (l : lobj) (p : nat) (v : T) (a : nat)
  : option (heap * lobj) :=
  match n with
  | O => None
  | S n' =>
      if p =? l_head l then push_back h l v a
      else do x <- get_obj h p;
           if ltb v x then do (h1, l1, _) <- insert h l p v a; Some (h1, l1)
           else do q <- get_next h p; push_sorted_loop n' h l q v a
  end.
Definition push_sorted (h : heap) (l : lobj) (v : T) (a : nat) : option (heap * lobj) :=
  do b <- get_next h (l_head l); push_sorted_loop (fuel l) h l b v a.

(** 132-137: the loop of clear *)
Fixpoint clear_loop (n : nat) (h : heap) (head p : nat) : option heap :=
  match n with
  | O => None
  | S n' =>
      if p =? head then Some h
      else do q <- get_next h p;
           do h1 <- delete h p;
           clear_loop n' h1 head q
  end.
(** 124-139: clear *)
Definition clear (h : heap) (l : lobj) : option (heap * lobj) :=
  do p <- get_next h (l_head l);
  do h1 <- set_next h (l_head l) (l_head l);
  do h2 <- set_prev h1 (l_head l) (l_head l);
  do h3 <- clear_loop (fuel l) h2 (l_head l) p;
  Some (h3, LObj (l_head l) 0).

(** 77-87: ~List (free of the sentinel) *)
Definition destroy (h : heap) (l : lobj) : option heap :=
  do (h1, l1) <- clear h l;
  do n <- h1 (l_head l1);
  Some (mset h1 (l_head l1) None).

(** 250-265: erase; result: the iterator after the element *)
Definition erase (h : heap) (l : lobj) (w : nat) : option (heap * lobj * nat) :=
  do it <- get_next h w;
  do p <- get_prev h w;
  do q <- get_next h w;
  do h1 <- set_next h p q;
  do q' <- get_next h1 w;
  do p' <- get_prev h1 w;
  do h2 <- set_prev h1 q' p';
  do h3 <- delete h2 w;
  Some (h3, LObj (l_head l) (l_size l - 1), it).

(** 298-307: find *)
Fixpoint find_loop (n : nat) (h : heap) (head p : nat) (v : T) : option nat :=
  match n with
  | O => None
  | S n' =>
      if p =? head then Some head
      else do x <- get_obj h p;
           if eqb x v then Some p
           else do q <- get_next h p; find_loop n' h head q v
  end.
Definition find (h : heap) (l : lobj) (v : T) : option nat :=
  do b <- get_next h (l_head l); find_loop (fuel l) h (l_head l) b v.

(** 285-296: remove *)
Fixpoint remove_loop (n : nat) (h : heap) (l : lobj) (p : nat) (v : T) : option (heap * lobj) :=
  match n with
  | O => None
  | S n' =>
      if p =? l_head l then Some (h, l)
      else do x <- get_obj h p;
           if eqb x v then do (h1, l1, _) <- erase h l p; Some (h1, l1)
           else do q <- get_next h p; remove_loop n' h l q v
  end.
Definition remove (h : heap) (l : lobj) (v : T) : option (heap * lobj) :=
  do b <- get_next h (l_head l); remove_loop (fuel l) h l b v.

(** The memory and the List objects; a name stands for the address of an object. *)
Record sys := Sys { s_heap : heap; s_lists : nat -> option lobj }.

(** 73-75, 311-313: [for (iter = src.begin(); iter != src.end(); iter++)
    push_back( *iter)]; [addrs]: the addresses of the new nodes.  The end
    of [src] is read again in every iteration, through the table of lists
    ([dst] and [src] may be the same list). *)
Fixpoint copy_loop (s : sys) (dst src : nat) (p : nat) (addrs : list nat) : option sys :=
  do sl <- s_lists s src;
  match addrs with
  | [] => if p =? l_head sl then Some s else None
  | a :: addrs' =>
      if p =? l_head sl then None
      else do v <- get_obj (s_heap s) p;
           do dl <- s_lists s dst;
           do (h1, dl1) <- push_back (s_heap s) dl v a;
           do q <- get_next h1 p;
           copy_loop (Sys h1 (mset (s_lists s) dst (Some dl1))) dst src q addrs'
  end.
Definition copy_from (s : sys) (dst src : nat) (addrs : list nat) : option sys :=
  do sl <- s_lists s src;
  do b <- get_next (s_heap s) (l_head sl);
  copy_loop s dst src b addrs.

(** The interface of a List and its iterators.  [l]: a List object, [p]: the
    pointer in an iterator, [a]: the address of the node that is allocated. *)
Inductive op :=
| ONew (l a : nat)                                   (* List() *)
| OCopy (l src a : nat) (addrs : list nat)           (* List(const List &) *)
| OAssign (l src : nat) (addrs : list nat)           (* operator= *)
| ODestroy (l : nat)
| OPushBack (l : nat) (v : T) (a : nat)
| OPushFront (l : nat) (v : T) (a : nat)
| OPushSorted (l : nat) (v : T) (a : nat)
| OInsert (l w : nat) (v : T) (a : nat)
| OErase (l w : nat)
| ORemove (l : nat) (v : T)
| OFind (l : nat) (v : T)
| OClear (l : nat)
| OSize (l : nat)
| OEmpty (l : nat)
| OFront (l : nat)
| OBack (l : nat)
| OBegin (l : nat)
| OEnd (l : nat)
| ONext (p : nat)                                    (* operator++ *)
| OPrev (p : nat)                                    (* operator-- *)
| ODeref (p : nat)
| OWrite (p : nat) (v : T).                          (* assignment through p *)

Inductive res := RUnit | RIter (p : nat) | RVal (v : T) | RSize (z : Z) | RBool (b : bool).

Definition upd_list (s : sys) (l : nat) (r : option (heap * lobj)) : option (sys * res) :=
  do (h, o) <- r; Some (Sys h (mset (s_lists s) l (Some o)), RUnit).

Definition step (s : sys) (o : op) : option (sys * res) :=
  let h := s_heap s in
  match o with
  | ONew l a =>
      match s_lists s l with
      | Some _ => None
      | None => upd_list s l (new_list h a)
      end
  | OCopy l src a addrs =>
      match s_lists s l with
      | Some _ => None
      | None => do (s1, _) <- upd_list s l (new_list h a);
                do s2 <- copy_from s1 l src addrs;
                Some (s2, RUnit)
      end
  | OAssign l src addrs =>                                       (* 308-315 *)
      do o <- s_lists s l;
      do (s1, _) <- upd_list s l (clear h o);
      do s2 <- copy_from s1 l src addrs;
      Some (s2, RUnit)
  | ODestroy l =>
      do o <- s_lists s l;
      do h1 <- destroy h o;
      Some (Sys h1 (mset (s_lists s) l None), RUnit)
  | OPushBack l v a => do o <- s_lists s l; upd_list s l (push_back h o v a)
  | OPushFront l v a => do o <- s_lists s l; upd_list s l (push_front h o v a)
  | OPushSorted l v a => do o <- s_lists s l; upd_list s l (push_sorted h o v a)
  | OInsert l w v a =>
      do o <- s_lists s l;
      do (h1, o1, it) <- insert h o w v a;
      Some (Sys h1 (mset (s_lists s) l (Some o1)), RIter it)
  | OErase l w =>
      do o <- s_lists s l;
      do (h1, o1, it) <- erase h o w;
      Some (Sys h1 (mset (s_lists s) l (Some o1)), RIter it)
  | ORemove l v => do o <- s_lists s l; upd_list s l (remove h o v)
  | OFind l v => do o <- s_lists s l; do p <- find h o v; Some (s, RIter p)
  | OClear l => do o <- s_lists s l; upd_list s l (clear h o)
  | OSize l => do o <- s_lists s l; Some (s, RSize (l_size o))            (* 119-122 *)
  | OEmpty l => do o <- s_lists s l; Some (s, RBool (Z.eqb (l_size o) 0)) (* 140-143 *)
  | OFront l =>                                                           (* 144-147 *)
      do o <- s_lists s l; do p <- get_next h (l_head o); do v <- get_obj h p; Some (s, RVal v)
  | OBack l =>                                                            (* 148-151 *)
      do o <- s_lists s l; do p <- get_prev h (l_head o); do v <- get_obj h p; Some (s, RVal v)
  | OBegin l => do o <- s_lists s l; do p <- get_next h (l_head o); Some (s, RIter p)  (* 242-245 *)
  | OEnd l => do o <- s_lists s l; Some (s, RIter (l_head o))                          (* 246-249 *)
  | ONext p =>                                                            (* 192-205 *)
      if p =? 0 then Some (s, RIter 0) else do q <- get_next h p; Some (s, RIter q)
  | OPrev p =>                                                            (* 176-189 *)
      if p =? 0 then Some (s, RIter 0) else do q <- get_prev h p; Some (s, RIter q)
  | ODeref p => do v <- get_obj h p; Some (s, RVal v)
  | OWrite p v =>
      do n <- h p; do _ <- n_obj n;
      Some (Sys (mset h p (Some (Node (Some v) (n_next n) (n_prev n)))) (s_lists s), RUnit)
  end.

Definition sys0 : sys := Sys (fun _ => None) (fun _ => None).

Fixpoint run (s : sys) (l : list op) : option (sys * list res) :=
  match l with
  | [] => Some (s, [])
  | o :: l' => do (s1, r) <- step s o; do (s2, rs) <- run s1 l'; Some (s2, r :: rs)
  end.

(** Client code that walks over a list with iterators: from [p] until [e],
    forward and backward. *)
Fixpoint walk (next : heap -> nat -> option nat) (n : nat) (h : heap) (p e : nat) : option (list T) :=
  match n with
  | O => None
  | S n' => if p =? e then Some []
            else do v <- get_obj h p;
                 do q <- next h p;
                 do r <- walk next n' h q e;
                 Some (v :: r)
  end.
End ListModel.
