(** Properties of SourceHook::CStack (C28). *)
From Coq Require Import List ZArith Bool Arith Lia.
From Verif Require Import ListModel VecProofs StackModel StackSpec StackProofs.
Import ListNotations.
Local Open Scope Z_scope.

(** C28: every sequence of operations that is possible on sequences (no pop,
    front or second without enough elements, indices inside, no assignment of a
    stack to itself) is defined for every allocator and gives the results it
    gives on sequences; push also accepts references to elements of the stack
    itself.  Elements have different addresses, and the sectors in memory are
    those of the stacks. *)
Theorem C28_stack : forall (T : Type) (alloc : @kheap T -> nat), kallocator alloc ->
  forall ops sp rs, jrun no_stacks ops sp rs ->
  exists s, krun alloc ksys0 ops = Some (s, rs) /\
    (forall l, sp l = None -> k_stacks s l = None) /\
    (forall l xs, sp l = Some xs -> exists k, k_stacks s l = Some k /\ k_used k = Z.of_nat (length xs) /\
       (forall i v, nth_error xs i = Some (Some v) -> exists p, at_loc k (Z.of_nat i) = Some p /\ kread (k_heap s) p = Some (Some v))) /\
    (forall l m k w i j p, k_stacks s l = Some k -> k_stacks s m = Some w -> 0 <= i -> 0 <= j ->
       at_loc k i = Some p -> at_loc w j = Some p -> l = m /\ i = j) /\
    (forall a, k_heap s a <> None -> exists l k, k_stacks s l = Some k /\ In a (k_sectors k)).
Proof.
  intros T alloc A ops sp rs Q.
  destruct (krun_refines alloc A ops ksys0 no_stacks sp rs krel0 Q) as (s & E & R).
  exists s. split; [exact E|]. split; [apply (kr_none _ _ R)|]. split; [|split; [|apply (kr_leak _ _ R)]].
  - intros l xs El. destruct (kr_some _ _ R _ _ El) as (k & Ek & H). exists k. split; [exact Ek|].
    split; [apply (hl_used _ _ _ H)|]. intros i v Ei. apply (at_is_loc _ _ _ _ _ H Ei).
  - intros l m k w i j p Ek Ew I J E1 E2. destruct (Nat.eq_dec l m) as [->|N].
    + split; [reflexivity|]. rewrite Ek in Ew. inversion Ew; subst w.
      destruct (sp m) as [xs|] eqn:Em; [|rewrite (kr_none _ _ R _ Em) in Ek; discriminate].
      destruct (kr_some _ _ R _ _ Em) as (k' & Ek' & H). rewrite Ek in Ek'. inversion Ek'; subst k'.
      destruct (hl_has _ _ _ H) as [Nd _]. eapply at_loc_inj; eauto.
    + exfalso. eapply (kr_disj _ _ R l m k w (fst p) N Ek Ew); eapply at_loc_in; eauto.
Qed.
Print Assumptions C28_stack.

(** Following operations during which the stack [l] is not destroyed or assigned
    to, always keeps more than [i] elements, and element [i] is not written. *)
Inductive keeping {T} (l i : nat) : @kseqs T -> list (@kop T) -> @kseqs T -> list (@kres T) -> Prop :=
| KeepNil sp : keeping l i sp [] sp []
| KeepCons sp o sp1 r ops sp2 rs xs : jstep sp o sp1 r ->
    leaves l o -> (forall v, o <> KSet l (Z.of_nat i) v) ->
    sp1 l = Some xs -> (i < length xs)%nat ->
    keeping l i sp1 ops sp2 rs -> keeping l i sp (o :: ops) sp2 (r :: rs).

Lemma jstep_keeps {T} (sp : @kseqs T) o sp' r l i xs ys c : jstep sp o sp' r -> leaves l o ->
  (forall v, o <> KSet l (Z.of_nat i) v) -> sp l = Some xs -> nth_error xs i = Some c -> sp' l = Some ys -> (i < length ys)%nat ->
  nth_error ys i = Some c.
Proof.
  intros J L W El Ei El' Li.
  assert (K : forall m zs, mset sp m (Some zs) l = Some ys -> (m = l -> nth_error zs i = Some c) -> nth_error ys i = Some c).
  { intros m zs E H. destruct (Nat.eq_dec l m) as [->|N].
    - rewrite mset_eq in E. inversion E; subst. auto.
    - rewrite mset_ne in E by exact N. congruence. }
  destruct J; try (rewrite El in El'; inversion El'; subst; assumption); cbn [leaves] in L.
  - apply (K _ _ El'). congruence.
  - apply (K _ _ El'). congruence.
  - apply (K _ _ El'). congruence.
  - rewrite mset_ne in El' by congruence. congruence.
  - apply (K _ _ El'). intros ->. rewrite El in H. inversion H; subst. rewrite nth_error_app1; [exact Ei|]. apply nth_error_Some. congruence.
  - apply (K _ _ El'). intros ->. rewrite El in H. inversion H; subst. rewrite nth_error_app1; [exact Ei|]. apply nth_error_Some. congruence.
  - apply (K _ _ El'). intros ->. rewrite El in H. inversion H; subst. rewrite mset_eq in El'. inversion El'; subst.
    rewrite nth_error_app1 in Ei by exact Li. exact Ei.
  - apply (K _ _ El'). intros ->. rewrite mset_eq in El'. inversion El'; subst. cbn in Li. lia.
  - apply (K _ _ El'). intros ->. rewrite El in H. inversion H; subst.
    assert (N : i <> length xs0) by (intros ->; apply (W v); reflexivity).
    destruct (Nat.lt_ge_cases i (length xs0)).
    + rewrite nth_error_app1 in * by lia. exact Ei.
    + rewrite nth_error_app2 in * by lia. destruct (i - length xs0)%nat eqn:D; [lia|]. exact Ei.
Qed.

(** C28: the address of an element stays the address of this element, and the
    element keeps its value, until it is popped: whatever is pushed, made by
    make_next, popped above it or done with other stacks meanwhile. *)
Theorem C28_references : forall (T : Type) (alloc : @kheap T -> nat), kallocator alloc ->
  forall ops1 sp1 rs1 ops2 sp2 rs2 l i xs v,
  jrun no_stacks ops1 sp1 rs1 -> sp1 l = Some xs -> nth_error xs i = Some (Some v) ->
  keeping l i sp1 ops2 sp2 rs2 ->
  exists s1 s2 k1 k2 p, krun alloc ksys0 ops1 = Some (s1, rs1) /\ krun alloc s1 ops2 = Some (s2, rs2) /\
    k_stacks s1 l = Some k1 /\ k_stacks s2 l = Some k2 /\
    at_loc k1 (Z.of_nat i) = Some p /\ at_loc k2 (Z.of_nat i) = Some p /\ kread (k_heap s2) p = Some (Some v).
Proof.
  intros T alloc A ops1 sp1 rs1 ops2 sp2 rs2 l i xs v Q El Ei K.
  destruct (krun_refines alloc A ops1 ksys0 no_stacks sp1 rs1 krel0 Q) as (s1 & E1 & R1).
  destruct (kr_some _ _ R1 _ _ El) as (k1 & Ek1 & H1). destruct (at_is_loc _ _ _ _ _ H1 Ei) as (p & Ep & Rp).
  enough (G : forall s k xs, krel s sp1 -> k_stacks s l = Some k -> sp1 l = Some xs -> nth_error xs i = Some (Some v) -> at_loc k (Z.of_nat i) = Some p ->
     exists s2 k2, krun alloc s ops2 = Some (s2, rs2) /\ k_stacks s2 l = Some k2 /\ at_loc k2 (Z.of_nat i) = Some p /\ kread (k_heap s2) p = Some (Some v)).
  { destruct (G s1 k1 xs R1 Ek1 El Ei Ep) as (s2 & k2 & E2 & Ek2 & Ep2 & Rp2). exists s1, s2, k1, k2, p. auto 10. }
  clear - A K. induction K as [sp|sp o sp' r ops sp2 rs ys J L W El' Li K IH]; intros s k xs R Ek El Ei Ep.
  - exists s, k. destruct (kr_some _ _ R _ _ El) as (k' & Ek' & H). rewrite Ek in Ek'. inversion Ek'; subst k'.
    destruct (at_is_loc _ _ _ _ _ H Ei) as (q & Eq & Rq). rewrite Ep in Eq. inversion Eq; subst q. auto.
  - destruct (kstep_refines alloc A s sp o sp' r R J) as (s' & E' & R').
    destruct (kstep_sectors alloc A s sp o sp' r s' l k R J E' L Ek) as (k' & secs & Ek' & Es).
    pose proof (jstep_keeps sp o sp' r l i xs ys (Some v) J L W El Ei El' Li) as Ei'.
    destruct (IH s' k' ys R' Ek' El' Ei' (at_loc_app k k' secs _ _ Es Ep)) as (s2 & k2 & E2 & H2).
    exists s2, k2. split; [|exact H2]. cbn [krun]. rewrite E', E2. reflexivity.
Qed.
Print Assumptions C28_references.

(** C28: when all stacks are destroyed no sector is left. *)
Theorem C28_no_leak : forall (T : Type) (alloc : @kheap T -> nat), kallocator alloc ->
  forall ops sp rs s, jrun no_stacks ops sp rs -> krun alloc ksys0 ops = Some (s, rs) ->
  (forall l, sp l = None) -> forall a, k_heap s a = None.
Proof.
  intros T alloc A ops sp rs s Q E N a.
  destruct (C28_stack T alloc A ops sp rs Q) as (s' & E' & No & _ & _ & L). rewrite E in E'. inversion E'; subst s'.
  destruct (k_heap s a) eqn:H; [|reflexivity].
  destruct (L a) as (l & k & Ek & _); [congruence|]. rewrite (No l (N l)) in Ek. discriminate.
Qed.
Print Assumptions C28_no_leak.

Definition kfirst_free {T} (h : @kheap T) : nat :=
  match List.find (fun a => match h a with None => true | Some _ => false end) (seq 1 (klimit h)) with
  | Some a => a
  | None => S (klimit h)
  end.

Example kfirst_free_allocator : forall T, kallocator (@kfirst_free T).
Proof.
  intros T h B. unfold kfirst_free.
  destruct (List.find _ _) as [a|] eqn:E.
  - apply find_some in E. destruct E as [I E]. apply in_seq in I. split; [lia|]. destruct (h a); [discriminate|reflexivity].
  - split; [lia|]. apply B. lia.
Qed.

(** Findings. *)

(** Assigning a stack to itself frees its sectors but keeps its size: the next
    access to an element is undefined. *)
Theorem C28_self_assign_refuted :
  exists s, krun kfirst_free ksys0 [KNew 0; KPush 0 (KAVal 7); KAssign 0 0; KSize 0] = Some (s, [KUnit; KUnit; KUnit; KNum 1]) /\
    kstep kfirst_free s (KFront 0) = None.
Proof. eexists. split; reflexivity. Qed.
Print Assumptions C28_self_assign_refuted.

(** pop on an empty stack makes its size SIZE_MAX. *)
Theorem C28_pop_empty_refuted : forall alloc : @kheap Z -> nat,
  exists s, krun alloc ksys0 [KNew 0; KPop 0; KSize 0] = Some (s, [KUnit; KUnit; KNum (2 ^ 64 - 1)]).
Proof. intros alloc. eexists. reflexivity. Qed.
Print Assumptions C28_pop_empty_refuted.

(** make_next returns an element with the value a popped element had. *)
Theorem C28_make_next_stale :
  exists s, krun kfirst_free ksys0 [KNew 0; KPush 0 (KAVal 7); KPop 0; KMakeNext 0; KFront 0] =
    Some (s, [KUnit; KUnit; KUnit; KUnit; KValue 7]).
Proof. eexists. reflexivity. Qed.
Print Assumptions C28_make_next_stale.

(** The hypotheses are met. *)
Example C28_ex : exists sp1 rs1 sp2 rs2 xs,
  jrun (T := Z) no_stacks [KNew 0; KPush 0 (KAVal 3); KPush 0 (KAVal 4)] sp1 rs1 /\ sp1 0%nat = Some xs /\
  nth_error xs 1 = Some (Some 4) /\
  keeping 0 1 sp1 [KMakeNext 0; KSet 0 2 9; KPush 0 (KAElem 0 1); KCopy 1 0; KSecond 0; KPop 0; KIter 0; KDestroy 1] sp2 rs2 /\
  sp2 0%nat = Some [Some 3; Some 4; Some 9] /\ nth_error rs2 4 = Some (KValue 9) /\ nth_error rs2 6 = Some (KList [3; 4; 9]).
Proof.
  do 5 eexists. split; [|split; [|split; [|split]]].
  - eapply JRunCons; [apply JNew; reflexivity|].
    eapply JRunCons; [eapply JPush; [reflexivity|apply KArgVal]|].
    eapply JRunCons; [eapply JPush; [reflexivity|apply KArgVal]|].
    apply JRunNil.
  - reflexivity.
  - reflexivity.
  - eapply KeepCons; [apply JMakeNext; reflexivity|exact I|discriminate|reflexivity|cbn; lia|].
    eapply KeepCons; [apply (JSet _ 0%nat [Some 3; Some 4] None []); reflexivity|exact I|intros w E; inversion E|reflexivity|cbn; lia|].
    eapply KeepCons; [eapply JPush; [reflexivity|eapply (KArgElem _ 0%nat 1%nat); reflexivity]|exact I|discriminate|reflexivity|cbn; lia|].
    eapply KeepCons; [eapply JCopy; reflexivity|exact I|discriminate|reflexivity|cbn; lia|].
    eapply KeepCons; [eapply (JSecond _ 0%nat [Some 3; Some 4]); reflexivity|exact I|discriminate|reflexivity|cbn; lia|].
    eapply KeepCons; [eapply (JPop _ 0%nat [Some 3; Some 4; Some 9]); reflexivity|exact I|discriminate|reflexivity|cbn; lia|].
    eapply KeepCons; [eapply (JIter _ 0%nat [3; 4; 9]); reflexivity|exact I|discriminate|reflexivity|cbn; lia|].
    eapply KeepCons; [eapply JDestroy; reflexivity|cbn; discriminate|discriminate|reflexivity|cbn; lia|].
    apply KeepNil.
  - repeat split; reflexivity.
Qed.
