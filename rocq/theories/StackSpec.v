(** What CStack should do, on sequences: the last element is the top.  An element
    is [None] while it is not known: after make_next, until something is written. *)
From Coq Require Import List ZArith Bool Arith.
From Verif Require Import ListModel StackModel.
Import ListNotations.
Local Open Scope nat_scope.

Section StackSpec.
Context {T : Type}.
Definition kseqs := nat -> option (list (option T)).

Inductive karg_val (sp : kseqs) : @karg T -> T -> Prop :=
| KArgVal v : karg_val sp (KAVal v) v
| KArgElem m i xs v : sp m = Some xs -> nth_error xs i = Some (Some v) -> karg_val sp (KAElem m (Z.of_nat i)) v.

Definition fits (n : nat) : Prop := (Z.of_nat n < 2 ^ 64)%Z.

Inductive jstep (sp : kseqs) : @kop T -> kseqs -> @kres T -> Prop :=
| JNew l : sp l = None -> jstep sp (KNew l) (mset sp l (Some [])) KUnit
| JCopy l m xs : sp l = None -> sp m = Some xs -> jstep sp (KCopy l m) (mset sp l (Some xs)) KUnit
| JAssign l m xs ys : l <> m -> sp l = Some ys -> sp m = Some xs -> jstep sp (KAssign l m) (mset sp l (Some xs)) KUnit
| JDestroy l xs : sp l = Some xs -> jstep sp (KDestroy l) (mset sp l None) KUnit
| JPush l xs a v : sp l = Some xs -> karg_val sp a v -> jstep sp (KPush l a) (mset sp l (Some (xs ++ [Some v]))) KUnit
| JMakeNext l xs : sp l = Some xs -> jstep sp (KMakeNext l) (mset sp l (Some (xs ++ [None]))) KUnit
| JPop l xs c : sp l = Some (xs ++ [c]) -> fits (length xs) -> jstep sp (KPop l) (mset sp l (Some xs)) KUnit
| JPopAll l xs : sp l = Some xs -> jstep sp (KPopAll l) (mset sp l (Some [])) KUnit
| JGet l xs i v : sp l = Some xs -> nth_error xs i = Some (Some v) -> jstep sp (KGet l (Z.of_nat i)) sp (KValue v)
| JSet l xs c ys v : sp l = Some (xs ++ c :: ys) ->
    jstep sp (KSet l (Z.of_nat (length xs)) v) (mset sp l (Some (xs ++ Some v :: ys))) KUnit
| JFront l xs v : sp l = Some (xs ++ [Some v]) -> fits (length xs) -> jstep sp (KFront l) sp (KValue v)
| JSecond l xs v c : sp l = Some (xs ++ [Some v; c]) -> fits (length xs) -> jstep sp (KSecond l) sp (KValue v)
| JIter l xs : sp l = Some (map Some xs) -> jstep sp (KIter l) sp (KList xs)
| JSize l xs : sp l = Some xs -> jstep sp (KSize l) sp (KNum (Z.of_nat (length xs)))
| JEmpty l xs : sp l = Some xs -> jstep sp (KEmpty l) sp (KBool (match xs with [] => true | _ => false end)).

Inductive jrun : kseqs -> list (@kop T) -> kseqs -> list (@kres T) -> Prop :=
| JRunNil sp : jrun sp [] sp []
| JRunCons sp o sp1 r l sp2 rs : jstep sp o sp1 r -> jrun sp1 l sp2 rs -> jrun sp (o :: l) sp2 (r :: rs).

Definition no_stacks : kseqs := fun _ => None.
End StackSpec.
