(** What CVector should do, on sequences. *)
From Coq Require Import List ZArith Bool Arith.
From Verif Require Import ListModel VecModel.
Import ListNotations.
Local Open Scope nat_scope.

Section VecSpec.
Context {T : Type}.
Definition seqs := nat -> option (list T).

(** (The bound in QPop: sizes are of type size_t, larger vectors do not exist.)

    The value of an argument of an operation that changes the vector [l]; a
    reference into [l] itself is not allowed. *)
Inductive arg_val (sp : seqs) (l : nat) : @arg T -> T -> Prop :=
| ArgVal v : arg_val sp l (AVal v) v
| ArgElem m i xs v : m <> l -> sp m = Some xs -> nth_error xs i = Some v -> arg_val sp l (AElem m (Z.of_nat i)) v.

Inductive qstep (sp : seqs) : @vop T -> seqs -> @vres T -> Prop :=
| QNew l : sp l = None -> qstep sp (VNew l) (mset sp l (Some [])) VUnit
| QCopy l m xs : sp l = None -> sp m = Some xs -> qstep sp (VCopy l m) (mset sp l (Some xs)) VUnit
| QAssign l m xs ys : l <> m -> sp l = Some ys -> sp m = Some xs -> qstep sp (VAssign l m) (mset sp l (Some xs)) VUnit
| QDestroy l xs : sp l = Some xs -> qstep sp (VDestroy l) (mset sp l None) VUnit
| QPush l xs a v : sp l = Some xs -> arg_val sp l a v -> qstep sp (VPush l a) (mset sp l (Some (xs ++ [v]))) VUnit
| QPop l xs v : sp l = Some (xs ++ [v]) -> (Z.of_nat (length xs) < size_max)%Z -> qstep sp (VPop l) (mset sp l (Some xs)) VUnit
| QResize l xs n v : sp l = Some xs ->
    qstep sp (VResize l (Z.of_nat n) v) (mset sp l (Some (firstn n xs ++ repeat v (n - length xs)))) VUnit
| QReserve l xs n : sp l = Some xs -> qstep sp (VReserve l (Z.of_nat n)) sp VUnit
| QInsert l xs ys a v : sp l = Some (xs ++ ys) -> arg_val sp l a v ->
    qstep sp (VInsert l (Z.of_nat (length xs)) a) (mset sp l (Some (xs ++ v :: ys))) (VIter (Some (Z.of_nat (length xs))))
| QErase l xs v ys : sp l = Some (xs ++ v :: ys) ->
    qstep sp (VErase l (Z.of_nat (length xs))) (mset sp l (Some (xs ++ ys))) (VIter (Some (Z.of_nat (length xs))))
| QClear l xs : sp l = Some xs -> qstep sp (VClear l) (mset sp l (Some [])) VUnit
| QGet l xs i v : sp l = Some xs -> nth_error xs i = Some v -> qstep sp (VGet l (Z.of_nat i)) sp (VVal v)
| QSet l xs w ys v : sp l = Some (xs ++ w :: ys) ->
    qstep sp (VSet l (Z.of_nat (length xs)) v) (mset sp l (Some (xs ++ v :: ys))) VUnit
| QFront l v xs : sp l = Some (v :: xs) -> qstep sp (VFront l) sp (VVal v)
| QBack l v xs : sp l = Some (xs ++ [v]) -> qstep sp (VBack l) sp (VVal v)
| QSize l xs : sp l = Some xs -> qstep sp (VSize l) sp (VNum (Z.of_nat (length xs)))
| QEmpty l xs : sp l = Some xs -> qstep sp (VEmpty l) sp (VBool (match xs with [] => true | _ => false end)).

Inductive qrun : seqs -> list (@vop T) -> seqs -> list (@vres T) -> Prop :=
| QRunNil sp : qrun sp [] sp []
| QRunCons sp o sp1 r l sp2 rs : qstep sp o sp1 r -> qrun sp1 l sp2 rs -> qrun sp (o :: l) sp2 (r :: rs).

Definition no_seqs : seqs := fun _ => None.
End VecSpec.
