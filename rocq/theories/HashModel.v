(** Model of SourceHook::THash (core/sourcehook/sh_tinyhash.h).

    A bucket is NULL or a list of pointers to nodes (List<THashNode *>, a
    sequence here, see C26); nodes are on a heap.  Using a node that was deleted,
    a bucket that is NULL or not there, and division by 0 buckets give [None].

    Parameters: HashFunction, Compare, operator== and their variants for other
    key types U (HashAlt, CompareAlt, K(u)); V(); the allocator of nodes; and
    [full used n], the decision `PercentUsed() > 0.75f` when [used] times
    1.0f / n was added up.  (The numbers of buckets are powers of 2, so these
    sums are exact up to 2^24 buckets and the decision is 4 * used > 3 * n; the
    theorems hold for every function [full].) *)
From Coq Require Import List ZArith Bool Arith.
From Verif Require Import ListModel.
Import ListNotations.
Local Open Scope Z_scope.

Section HashModel.
Context {K V U : Type}.

(** THashNode (sh_tinyhash.h:40-53); [n_limit]: an address above all used ones *)
Record nheap := NHeap { n_cells :> nat -> option (K * V); n_limit : nat }.
Definition nset (h : nheap) (a : nat) (x : option (K * V)) : nheap :=
  NHeap (mset h a x) (Nat.max (n_limit h) (S a)).

Variable hash : K -> Z.              (* int HashFunction(const K &) *)
Variable cmp : K -> K -> Z.          (* int Compare(const K &, const K &) *)
Variable conv : U -> K.              (* K(u) *)
Variable hash_alt : U -> Z.
Variable cmp_alt : U -> K -> Z.
Variable eq_alt : K -> U -> bool.    (* key == u *)
Variable dflt : V.                   (* V() *)
Variable full : Z -> Z -> bool.
Variable alloc : nheap -> nat.

(** m_Buckets and m_numBuckets (its length), m_percentUsed in units of 1/m_numBuckets
    (sh_tinyhash.h:528-530) *)
Record table := Table { t_buckets : list (option (list nat)); t_used : Z }.

Definition num (t : table) : Z := Z.of_nat (length (t_buckets t)).

(** int % size_t *)
Definition place (x n : Z) : option nat := if n =? 0 then None else Some (Z.to_nat ((x mod 2 ^ 64) mod n)).

Fixpoint upd {A} (l : list A) (i : nat) (x : A) : list A :=
  match l, i with
  | [], _ => []
  | _ :: l', O => x :: l'
  | y :: l', S i' => y :: upd l' i' x
  end.

(** Iterating over the old buckets in _Refactor (sh_tinyhash.h:200-218) *)
Fixpoint move_nodes (h : nheap) (n : Z) (ids : list nat) (t : table) : option table :=
  match ids with
  | [] => Some t
  | id :: ids' =>
      do kv <- h id;
      do p <- place (hash (fst kv)) n;
      do b <- nth_error (t_buckets t) p;
      let t := match b with
               | None => Table (upd (t_buckets t) p (Some [id])) (t_used t + 1)
               | Some l => Table (upd (t_buckets t) p (Some (l ++ [id]))) (t_used t)
               end in
      move_nodes h n ids' t
  end.

Definition bucket_ids (b : option (list nat)) : list nat := match b with Some l => l | None => [] end.
Definition ids_of (t : table) : list nat := concat (map bucket_ids (t_buckets t)).

(** _Refactor (sh_tinyhash.h:181-228) *)
Definition refactor (h : nheap) (t : table) : option table :=
  if num t =? 0 then Some (Table (repeat None 32) 0)
  else let n := num t * 2 in
       move_nodes h n (ids_of t) (Table (repeat None (Z.to_nat n)) 0).

(** THash() (sh_tinyhash.h:57-60) *)
Definition new_table (h : nheap) : option table := refactor h (Table [] 0).

(** deleting all nodes (sh_tinyhash.h:102-116) *)
Fixpoint del_nodes (h : nheap) (ids : list nat) : option nheap :=
  match ids with
  | [] => Some h
  | id :: l => match h id with Some _ => del_nodes (nset h id None) l | None => None end
  end.

(** _Clear (sh_tinyhash.h:99-121), also the destructor *)
Definition clear0 (h : nheap) (t : table) : option (nheap * table) :=
  do h <- del_nodes h (ids_of t); Some (h, Table [] (t_used t)).

(** clear (sh_tinyhash.h:80-84) *)
Definition clear_table (h : nheap) (t : table) : option (nheap * table) :=
  do (h, t) <- clear0 h t; do t <- refactor h t; Some (h, t).

(** the loops over a bucket in _FindOrInsert and AltFindOrInsert: Some (Some id) if found *)
Fixpoint search (h : nheap) (test : K -> bool) (l : list nat) : option (option nat) :=
  match l with
  | [] => Some None
  | id :: l' => do kv <- h id; if test (fst kv) then Some (Some id) else search h test l'
  end.

(** _FindOrInsert (sh_tinyhash.h:154-180) with hv = HashFunction(key), test =
    (Compare(., key) == 0), and AltFindOrInsert (123-152) with hv = HashAlt(ukey),
    test = (CompareAlt(ukey, .) == 0), key = K(ukey) *)
Definition find_or_insert (h : nheap) (t : table) (hv : Z) (test : K -> bool) (key : K) : option (nheap * table * nat) :=
  do p <- place hv (num t);
  do b <- nth_error (t_buckets t) p;
  do f <- search h test (bucket_ids b);
  match f with
  | Some id => Some (h, t, id)
  | None =>
      let id := alloc h in
      let h := nset h id (Some (key, dflt)) in
      let t := Table (upd (t_buckets t) p (Some (bucket_ids b ++ [id])))
                     (match b with None => t_used t + 1 | Some _ => t_used t end) in
      do t <- (if full (t_used t) (num t) then refactor h t else Some t);
      Some (h, t, id)
  end.

Definition by_key (h : nheap) (t : table) (k : K) := find_or_insert h t (hash k) (fun x => cmp x k =? 0) k.
Definition by_alt (h : nheap) (t : table) (u : U) := find_or_insert h t (hash_alt u) (fun x => cmp_alt u x =? 0) (conv u).

Definition set_val (h : nheap) (id : nat) (v : V) : option nheap :=
  do kv <- h id; Some (nset h id (Some (fst kv, v))).

(** Iterators (sh_tinyhash.h:230-351; const_iterator, 352-449, is the same): curbucket, the node the list
    iterator points to ([None]: the end of the bucket's list), end *)
Record hiter := HIt { i_cur : Z; i_node : option nat; i_end : bool }.

(** the first node in a bucket from number [i] on (the loops in _Inc) *)
Fixpoint first_from (l : list (option (list nat))) (i : Z) : option (Z * nat) :=
  match l with
  | [] => None
  | b :: l' => match b with Some (id :: _) => Some (i, id) | _ => first_from l' (i + 1) end
  end.

(** the node behind [id] in a list *)
Fixpoint next_in (l : list nat) (id : nat) : option nat :=
  match l with
  | [] => None
  | x :: l' => if (x =? id)%nat then match l' with y :: _ => Some y | [] => None end else next_in l' id
  end.

(** _Inc (sh_tinyhash.h:305-345) *)
Definition inc (t : table) (it : hiter) : option hiter :=
  if i_end it || (i_cur it >=? num t) then Some it
  else if i_cur it <? 0 then
    match first_from (t_buckets t) 0 with
    | Some (i, id) => Some (HIt i (Some id) (i_end it))
    | None => Some (HIt (i_cur it) (i_node it) true)
    end
  else
    match nth_error (t_buckets t) (Z.to_nat (i_cur it)) with
    | Some (Some l) =>
        let node := match i_node it with Some id => next_in l id | None => None end in
        match node with
        | Some id => Some (HIt (i_cur it) (Some id) (i_end it))
        | None =>
            match first_from (skipn (Z.to_nat (i_cur it + 1)) (t_buckets t)) (i_cur it + 1) with
            | Some (i, id) => Some (HIt i (Some id) (i_end it))
            | None => Some (HIt (i_cur it) None true)
            end
        end
    | _ => None
    end.

(** iterator's constructor from a THash pointer (sh_tinyhash.h:237-243) *)
Definition begin_it (t : table) : option hiter :=
  if num t =? 0 then Some (HIt (-1) None true) else inc t (HIt (-1) None false).

(** operator-> of the iterator (sh_tinyhash.h:265-272) *)
Definition deref (h : nheap) (it : hiter) : option (nat * (K * V)) :=
  do id <- i_node it; do kv <- h id; Some (id, kv).

(** List::erase *)
Fixpoint remove_id (l : list nat) (id : nat) : list nat :=
  match l with [] => [] | x :: l' => if (x =? id)%nat then l' else x :: remove_id l' id end.

(** iterator::erase (sh_tinyhash.h:290-303) *)
Definition erase_it (h : nheap) (t : table) (it : hiter) : option (nheap * table * hiter) :=
  if i_end it || (i_cur it <? 0) || (i_cur it >=? num t) then Some (h, t, it)
  else
    do tmp <- inc t it;
    do id <- i_node it;
    match h id, nth_error (t_buckets t) (Z.to_nat (i_cur it)) with
    | Some _, Some (Some l) =>
        Some (nset h id None, Table (upd (t_buckets t) (Z.to_nat (i_cur it)) (Some (remove_id l id))) (t_used t), tmp)
    | _, _ => None
    end.

(** for (iter = b; iter != e; iter++) if (test) return iter; return end()
    (find and FindAlt, sh_tinyhash.h:486-511; the const variant of find, 474-485,
    does not compile when used); `!= end()` is `not i_end` *)
Fixpoint find_loop (n : nat) (h : nheap) (t : table) (test : K -> bool) (it : hiter) : option hiter :=
  if i_end it then Some it
  else match n with
       | O => None
       | S n' => do (_, kv) <- deref h it;
                 if test (fst kv) then Some it else do it <- inc t it; find_loop n' h t test it
       end.

Definition fuel_of (t : table) : nat := S (length (ids_of t)).
Definition find_by (h : nheap) (t : table) (test : K -> bool) : option hiter :=
  do b <- begin_it t; find_loop (fuel_of t) h t test b.

(** erase(const U &) (sh_tinyhash.h:517-524) *)
Definition erase_key (h : nheap) (t : table) (u : U) : option (nheap * table) :=
  do it <- find_by h t (fun k => eq_alt k u);
  if i_end it then Some (h, t) else do (h, t, _) <- erase_it h t it; Some (h, t).

(** Client loops: all nodes in the order of the iterators; and
    for (it = begin(); it != end(); ) if (p(it)) it = erase(it); else ++it;
    with the nodes visited *)
Fixpoint walk_all (n : nat) (h : nheap) (t : table) (it : hiter) : option (list (K * V)) :=
  if i_end it then Some []
  else match n with
       | O => None
       | S n' => do (_, kv) <- deref h it; do it <- inc t it; do l <- walk_all n' h t it; Some (kv :: l)
       end.

Fixpoint erase_loop (n : nat) (p : K * V -> bool) (h : nheap) (t : table) (it : hiter) : option (nheap * table * list (K * V)) :=
  if i_end it then Some (h, t, [])
  else match n with
       | O => None
       | S n' =>
           do (_, kv) <- deref h it;
           do (h, t, it) <- (if p kv then erase_it h t it else do it <- inc t it; Some (h, t, it));
           do (h, t, l) <- erase_loop n' p h t it;
           Some (h, t, kv :: l)
       end.

(** for (iter = other.begin(); ...) _FindOrInsert(iter->key)->val = iter->val
    (sh_tinyhash.h:66-67, 72-73) *)
Fixpoint copy_loop_h (n : nat) (h : nheap) (t o : table) (it : hiter) : option (nheap * table) :=
  if i_end it then Some (h, t)
  else match n with
       | O => None
       | S n' =>
           do (_, kv) <- deref h it;
           do (h, t, id) <- by_key h t (fst kv);
           do h <- set_val h id (snd kv);
           do it <- inc o it;
           copy_loop_h n' h t o it
       end.

(** THash(const THash &) (sh_tinyhash.h:61-68) *)
Definition copy_table (h : nheap) (o : table) : option (nheap * table) :=
  do b <- begin_it o;
  copy_loop_h (fuel_of o) h (Table (repeat None (length (t_buckets o))) (t_used o)) o b.

(** operator= (sh_tinyhash.h:69-74) for a different table *)
Definition assign_table (h : nheap) (t o : table) : option (nheap * table) :=
  do (h, t) <- clear_table h t;
  do b <- begin_it o;
  copy_loop_h (fuel_of o) h t o b.

(** operator= with the table itself: after clear() the loop runs over an empty table *)
Definition self_assign_table (h : nheap) (t : table) : option (nheap * table) :=
  do (h, t) <- clear_table h t;
  do b <- begin_it t;
  copy_loop_h (fuel_of t) h t t b.

(** Programs. *)
Record hsys := HSys { h_heap : nheap; h_tables : nat -> option table }.

Inductive hop :=
| HNew (l : nat) | HCopy (l m : nat) | HAssign (l m : nat) | HDestroy (l : nat) | HClear (l : nat)
| HAt (l : nat) (k : K)               (* h[k] *)
| HPut (l : nat) (k : K) (v : V)      (* h[k] = v *)
| HAltPut (l : nat) (u : U) (v : V)   (* h.AltFindOrInsert(u) = v *)
| HFind (l : nat) (u : U) | HFindAlt (l : nat) (u : U)
| HErase (l : nat) (u : U) | HEraseIf (l : nat) (p : K * V -> bool) | HWalk (l : nat).

Inductive hres := HUnit | HVal (v : V) | HFound (x : option (K * V)) | HAll (l : list (K * V)).

Definition hput (s : hsys) (l : nat) (p : option (nheap * table)) : option (hsys * hres) :=
  do (h, t) <- p; Some (HSys h (mset (h_tables s) l (Some t)), HUnit).

Definition found (s : hsys) (it : hiter) : option (hsys * hres) :=
  if i_end it then Some (s, HFound None) else do (_, kv) <- deref (h_heap s) it; Some (s, HFound (Some kv)).

Definition hstep (s : hsys) (o : hop) : option (hsys * hres) :=
  let h := h_heap s in
  match o with
  | HNew l => match h_tables s l with None => do t <- new_table h; hput s l (Some (h, t)) | Some _ => None end
  | HCopy l m => match h_tables s l with None => do w <- h_tables s m; hput s l (copy_table h w) | Some _ => None end
  | HAssign l m => do t <- h_tables s l; do w <- h_tables s m;
                   if (l =? m)%nat then hput s l (self_assign_table h t) else hput s l (assign_table h t w)
  | HDestroy l => do t <- h_tables s l; do (h, _) <- clear0 h t; Some (HSys h (mset (h_tables s) l None), HUnit)
  | HClear l => do t <- h_tables s l; hput s l (clear_table h t)
  | HAt l k => do t <- h_tables s l; do (h, t, id) <- by_key h t k; do kv <- h id;
               Some (HSys h (mset (h_tables s) l (Some t)), HVal (snd kv))
  | HPut l k v => do t <- h_tables s l; do (h, t, id) <- by_key h t k; do h <- set_val h id v; hput s l (Some (h, t))
  | HAltPut l u v => do t <- h_tables s l; do (h, t, id) <- by_alt h t u; do h <- set_val h id v; hput s l (Some (h, t))
  | HFind l u => do t <- h_tables s l; do it <- find_by h t (fun k => eq_alt k u); found s it
  | HFindAlt l u => do t <- h_tables s l; do it <- find_by h t (fun k => cmp_alt u k =? 0); found s it
  | HErase l u => do t <- h_tables s l; hput s l (erase_key h t u)
  | HEraseIf l p => do t <- h_tables s l; do b <- begin_it t; do (h, t, vs) <- erase_loop (fuel_of t) p h t b;
                    Some (HSys h (mset (h_tables s) l (Some t)), HAll vs)
  | HWalk l => do t <- h_tables s l; do b <- begin_it t; do vs <- walk_all (fuel_of t) h t b; Some (s, HAll vs)
  end.

Definition hsys0 : hsys := HSys (NHeap (fun _ => None) 0%nat) (fun _ => None).

Fixpoint hrun (s : hsys) (ops : list hop) : option (hsys * list hres) :=
  match ops with
  | [] => Some (s, [])
  | o :: l => do (s, r) <- hstep s o; do (s, rs) <- hrun s l; Some (s, r :: rs)
  end.
End HashModel.

Definition nbounded {K V} (h : @nheap K V) : Prop := forall b, (n_limit h <= b)%nat -> h b = None.
Definition nallocator {K V} (alloc : @nheap K V -> nat) : Prop :=
  forall h, nbounded h -> alloc h <> 0%nat /\ h (alloc h) = None.
