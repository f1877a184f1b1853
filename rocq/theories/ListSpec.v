(** What SourceHook::List should do, on sequences.  A list is the sequence of
    its elements; an element is the position iterators point to, and a value.
    [sl_end] is what end() returns. *)
From Coq Require Import List ZArith Arith Sorted Permutation.
From Verif Require Import ListModel.
Import ListNotations.
Local Open Scope nat_scope.

Section ListSpec.
Context {T : Type}.
Variable eqb : T -> T -> bool.
Variable ltb : T -> T -> bool.

Record slist := SL { sl_end : nat; sl_elems : list (nat * T) }.
Definition sstate := nat -> option slist.

Definition poss (s : slist) : list nat := sl_end s :: map fst (sl_elems s).

(** [a] is not NULL and no position of a list *)
Definition fresh (sp : sstate) (a : nat) : Prop :=
  a <> 0 /\ forall l s, sp l = Some s -> ~ In a (poss s).

Fixpoint fresh_all (sp : sstate) (l : list nat) : Prop :=
  match l with
  | [] => True
  | a :: l' => fresh sp a /\ ~ In a l' /\ fresh_all sp l'
  end.

(** [q] follows [p] when going round: end, first, second, ..., last, end *)
Definition follows (s : slist) (p q : nat) : Prop :=
  exists u v, poss s ++ [sl_end s] = u ++ p :: q :: v.

(** Operations on sequences that give a new sequence for the list [l]. *)
Inductive supd (sp : sstate) : nat -> @op T -> slist -> @res T -> Prop :=
| SNew l a : sp l = None -> fresh sp a -> supd sp l (ONew l a) (SL a []) RUnit
| SCopy l src s a addrs :
    sp l = None -> sp src = Some s -> fresh_all sp (a :: addrs) ->
    length addrs = length (sl_elems s) ->
    supd sp l (OCopy l src a addrs) (SL a (combine addrs (map snd (sl_elems s)))) RUnit
| SAssign l src s t addrs :
    sp l = Some t -> sp src = Some s -> l <> src -> fresh_all sp addrs ->
    length addrs = length (sl_elems s) ->
    supd sp l (OAssign l src addrs) (SL (sl_end t) (combine addrs (map snd (sl_elems s)))) RUnit
| SPushBack l s v a : sp l = Some s -> fresh sp a ->
    supd sp l (OPushBack l v a) (SL (sl_end s) (sl_elems s ++ [(a, v)])) RUnit
| SPushFront l s v a : sp l = Some s -> fresh sp a ->
    supd sp l (OPushFront l v a) (SL (sl_end s) ((a, v) :: sl_elems s)) RUnit
| SPushSorted l s v a u w : sp l = Some s -> fresh sp a ->
    sl_elems s = u ++ w ->
    (forall x, In x u -> ltb v (snd x) = false) ->
    (forall x w', w = x :: w' -> ltb v (snd x) = true) ->
    supd sp l (OPushSorted l v a) (SL (sl_end s) (u ++ (a, v) :: w)) RUnit
| SInsertAt l s v a u p x w : sp l = Some s -> fresh sp a ->
    sl_elems s = u ++ (p, x) :: w ->
    supd sp l (OInsert l p v a) (SL (sl_end s) (u ++ (a, v) :: (p, x) :: w)) (RIter a)
| SInsertEnd l s v a : sp l = Some s -> fresh sp a ->
    supd sp l (OInsert l (sl_end s) v a) (SL (sl_end s) (sl_elems s ++ [(a, v)])) (RIter a)
| SErase l s u p x w : sp l = Some s ->
    sl_elems s = u ++ (p, x) :: w ->
    supd sp l (OErase l p) (SL (sl_end s) (u ++ w))
         (RIter (match w with [] => sl_end s | (q, _) :: _ => q end))
| SRemove l s u p x v w : sp l = Some s ->
    sl_elems s = u ++ (p, x) :: w -> eqb x v = true ->
    (forall y, In y u -> eqb (snd y) v = false) ->
    supd sp l (ORemove l v) (SL (sl_end s) (u ++ w)) RUnit
| SRemoveNot l s v : sp l = Some s ->
    (forall y, In y (sl_elems s) -> eqb (snd y) v = false) ->
    supd sp l (ORemove l v) s RUnit
| SClear l s : sp l = Some s -> supd sp l (OClear l) (SL (sl_end s) []) RUnit
| SWrite l s u p x v w : sp l = Some s -> sl_elems s = u ++ (p, x) :: w ->
    supd sp l (OWrite p v) (SL (sl_end s) (u ++ (p, v) :: w)) RUnit.

(** Operations that only look. *)
Inductive squery (sp : sstate) : @op T -> @res T -> Prop :=
| SFind l s u p x v w : sp l = Some s ->
    sl_elems s = u ++ (p, x) :: w -> eqb x v = true ->
    (forall y, In y u -> eqb (snd y) v = false) ->
    squery sp (OFind l v) (RIter p)
| SFindNot l s v : sp l = Some s ->
    (forall y, In y (sl_elems s) -> eqb (snd y) v = false) ->
    squery sp (OFind l v) (RIter (sl_end s))
| SSize l s : sp l = Some s -> squery sp (OSize l) (RSize (Z.of_nat (length (sl_elems s))))
| SEmpty l s : sp l = Some s ->
    squery sp (OEmpty l) (RBool (match sl_elems s with [] => true | _ => false end))
| SFront l s p v w : sp l = Some s -> sl_elems s = (p, v) :: w -> squery sp (OFront l) (RVal v)
| SBack l s p v u : sp l = Some s -> sl_elems s = u ++ [(p, v)] -> squery sp (OBack l) (RVal v)
| SBegin l s : sp l = Some s ->
    squery sp (OBegin l) (RIter (match sl_elems s with [] => sl_end s | (p, _) :: _ => p end))
| SEnd l s : sp l = Some s -> squery sp (OEnd l) (RIter (sl_end s))
| SNext l s p q : sp l = Some s -> follows s p q -> squery sp (ONext p) (RIter q)
| SPrev l s p q : sp l = Some s -> follows s q p -> squery sp (OPrev p) (RIter q)
| SDeref l s p v : sp l = Some s -> In (p, v) (sl_elems s) -> squery sp (ODeref p) (RVal v).

Inductive sstep (sp : sstate) : @op T -> sstate -> @res T -> Prop :=
| StepUpd l o s r : supd sp l o s r -> sstep sp o (mset sp l (Some s)) r
| StepQuery o r : squery sp o r -> sstep sp o sp r
| StepDestroy l s : sp l = Some s -> sstep sp (ODestroy l) (mset sp l None) RUnit.

Inductive srun : sstate -> list (@op T) -> sstate -> list (@res T) -> Prop :=
| SRunNil sp : srun sp [] sp []
| SRunCons sp o sp1 r l sp2 rs : sstep sp o sp1 r -> srun sp1 l sp2 rs -> srun sp (o :: l) sp2 (r :: rs).

Definition sp0 : sstate := fun _ => None.

(** The element at position [p] with value [v] is in some list. *)
Definition element (sp : sstate) (p : nat) (v : T) : Prop :=
  exists l s, sp l = Some s /\ In (p, v) (sl_elems s).

(** Operations that destroy or change the element at [p]. *)
Definition touches (sp : sstate) (o : @op T) (p : nat) : Prop :=
  match o with
  | OErase _ q => q = p
  | OWrite q _ => q = p
  | ORemove l v => exists s u x w, sp l = Some s /\ sl_elems s = u ++ (p, x) :: w /\
                     eqb x v = true /\ (forall y, In y u -> eqb (snd y) v = false)
  | OClear l | ODestroy l | OAssign l _ _ => exists s x, sp l = Some s /\ In (p, x) (sl_elems s)
  | _ => False
  end.
End ListSpec.
