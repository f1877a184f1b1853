(** What THash should do, on finite maps. *)
From Coq Require Import List ZArith Bool Arith.
From Verif Require Import ListModel HashModel.
Import ListNotations.
Local Open Scope nat_scope.

Section HashSpec.
Context {K V U : Type}.
Variable conv : U -> K.
Variable dflt : V.

Definition fmap := K -> option V.
Definition maps := nat -> option fmap.

(** [m'] is [m] with [k] bound to [x]. *)
Definition bound (m : fmap) (k : K) (x : option V) (m' : fmap) : Prop :=
  m' k = x /\ forall k', k' <> k -> m' k' = m k'.

(** [l] lists every key of [m] once, with its value. *)
Definition lists (m : fmap) (l : list (K * V)) : Prop :=
  NoDup (map fst l) /\ forall k v, In (k, v) l <-> m k = Some v.

Definition or_default (x : option V) : V := match x with Some v => v | None => dflt end.

Inductive mstep (sp : maps) : @hop K V U -> maps -> @hres K V -> Prop :=
| MNew l m : sp l = None -> (forall k, m k = None) -> mstep sp (HNew l) (mset sp l (Some m)) HUnit
| MCopy l l2 m m' : sp l = None -> sp l2 = Some m -> (forall k, m' k = m k) -> mstep sp (HCopy l l2) (mset sp l (Some m')) HUnit
| MAssign l l2 m0 m m' : l <> l2 -> sp l = Some m0 -> sp l2 = Some m -> (forall k, m' k = m k) ->
    mstep sp (HAssign l l2) (mset sp l (Some m')) HUnit
| MDestroy l m : sp l = Some m -> mstep sp (HDestroy l) (mset sp l None) HUnit
| MClear l m m' : sp l = Some m -> (forall k, m' k = None) -> mstep sp (HClear l) (mset sp l (Some m')) HUnit
| MAt l k m m' : sp l = Some m -> bound m k (Some (or_default (m k))) m' ->
    mstep sp (HAt l k) (mset sp l (Some m')) (HVal (or_default (m k)))
| MPut l k v m m' : sp l = Some m -> bound m k (Some v) m' -> mstep sp (HPut l k v) (mset sp l (Some m')) HUnit
| MAltPut l (u : U) v m m' : sp l = Some m -> bound m (conv u) (Some v) m' -> mstep sp (HAltPut l u v) (mset sp l (Some m')) HUnit
| MFind l (u : U) m : sp l = Some m ->
    mstep sp (HFind l u) sp (HFound (match m (conv u) with Some v => Some (conv u, v) | None => None end))
| MFindAlt l (u : U) m : sp l = Some m ->
    mstep sp (HFindAlt l u) sp (HFound (match m (conv u) with Some v => Some (conv u, v) | None => None end))
| MErase l (u : U) (m : fmap) m' : sp l = Some m -> bound m (conv u) None m' -> mstep sp (HErase l u) (mset sp l (Some m')) HUnit
| MEraseIf l (p : K * V -> bool) m m' vs : sp l = Some m -> lists m vs ->
    (forall k, m' k = match m k with Some v => if p (k, v) then None else Some v | None => None end) ->
    mstep sp (HEraseIf l p) (mset sp l (Some m')) (HAll vs)
| MWalk l m vs : sp l = Some m -> lists m vs -> mstep sp (HWalk l) sp (HAll vs).

Inductive mrun : maps -> list (@hop K V U) -> maps -> list (@hres K V) -> Prop :=
| MRunNil sp : mrun sp [] sp []
| MRunCons sp o sp1 r l sp2 rs : mstep sp o sp1 r -> mrun sp1 l sp2 rs -> mrun sp (o :: l) sp2 (r :: rs).

(** What a client must provide: Compare, CompareAlt and == agree with equality of
    keys, and HashAlt(u) is HashFunction(K(u)). *)
Record key_ok (hash : K -> Z) (cmp : K -> K -> Z) (hash_alt : U -> Z) (cmp_alt : U -> K -> Z) (eq_alt : K -> U -> bool) : Prop := {
  ko_cmp : forall a b, cmp a b = 0%Z <-> a = b;
  ko_cmp_alt : forall u k, cmp_alt u k = 0%Z <-> k = conv u;
  ko_eq : forall k u, eq_alt k u = true <-> k = conv u;
  ko_hash : forall u, hash_alt u = hash (conv u)
}.

Definition no_maps : maps := fun _ => None.

(** Programs that only use tables that exist, and do not assign a table to itself. *)
Definition alive (a : nat -> bool) (o : @hop K V U) : bool :=
  match o with
  | HNew l => negb (a l)
  | HCopy l m => negb (a l) && a m
  | HAssign l m => a l && a m && negb (l =? m)
  | HDestroy l | HClear l | HAt l _ | HPut l _ _ | HAltPut l _ _ | HFind l _ | HFindAlt l _
  | HErase l _ | HEraseIf l _ | HWalk l => a l
  end.
Definition lives (a : nat -> bool) (o : @hop K V U) (l : nat) : bool :=
  match o with
  | HNew m | HCopy m _ => (l =? m) || a l
  | HDestroy m => negb (l =? m) && a l
  | _ => a l
  end.
Fixpoint sane (a : nat -> bool) (ops : list (@hop K V U)) : bool :=
  match ops with
  | [] => true
  | o :: ops' => alive a o && sane (lives a o) ops'
  end.
End HashSpec.
