(** Properties of SourceHook::CVector (C27). *)
From Coq Require Import List ZArith Bool Arith Lia.
From Verif Require Import ListModel VecModel VecSpec VecProofs.
Import ListNotations.
Local Open Scope Z_scope.

(** C27: every sequence of operations that is possible on sequences (no pop_back,
    front or back on an empty vector, indices inside, no assignment of a vector
    to itself, no reference into the vector that is changed as argument) is
    defined for every allocator and gives the results it gives on sequences.
    Afterwards every vector holds its sequence in its array, its size does not
    exceed its capacity and its array has as many slots as its capacity;
    different vectors have different arrays, and there are no other arrays. *)
Theorem C27_sequence : forall (T : Type) (alloc : @vheap T -> nat), allocator alloc ->
  forall ops sp rs, qrun no_seqs ops sp rs ->
  exists s, vrun alloc vsys0 ops = Some (s, rs) /\
    (forall l, sp l = None -> v_vecs s l = None) /\
    (forall l xs, sp l = Some xs -> exists v, v_vecs s l = Some v /\
       m_used v = Z.of_nat (length xs) /\ m_used v <= m_size v /\
       (m_data v <> 0%nat -> exists bk, v_heap s (m_data v) = Some bk /\ b_len bk = m_size v) /\
       forall i x, nth_error xs i = Some x -> rd (v_heap s) (m_data v) (Z.of_nat i) = Some x) /\
    (forall l m v w, l <> m -> v_vecs s l = Some v -> v_vecs s m = Some w -> m_data v = m_data w -> m_data v = 0%nat) /\
    (forall b, v_heap s b <> None -> exists l v, v_vecs s l = Some v /\ m_data v = b).
Proof.
  intros T alloc A ops sp rs Q.
  destruct (vrun_refines alloc A ops vsys0 no_seqs sp rs vrel0 Q) as (s & E & R).
  exists s. split; [exact E|]. split; [apply (vr_none _ _ R)|]. split; [|split; [apply (vr_disj _ _ R)|apply (vr_leak _ _ R)]].
  intros l xs El. destruct (vrel_okv _ _ _ _ R El) as (v & Ev & O). exists v. split; [exact Ev|].
  pose proof O as (G & _). split; [apply (gd_used _ _ _ G)|]. split; [apply (gd_cap _ _ _ G)|]. split.
  - intros N. destruct (gd_blk _ _ _ G N) as (bk & Eb & Lb & _). eauto.
  - intros i x Ex. apply (at_ok _ _ _ _ _ O Ex).
Qed.
Print Assumptions C27_sequence.

(** C27: when all vectors are destroyed no array is left. *)
Theorem C27_no_leak : forall (T : Type) (alloc : @vheap T -> nat), allocator alloc ->
  forall ops sp rs s, qrun no_seqs ops sp rs -> vrun alloc vsys0 ops = Some (s, rs) ->
  (forall l, sp l = None) -> forall b, v_heap s b = None.
Proof.
  intros T alloc A ops sp rs s Q E N b.
  destruct (C27_sequence T alloc A ops sp rs Q) as (s' & E' & No & _ & _ & L). rewrite E in E'. inversion E'; subst s'.
  destruct (v_heap s b) eqn:H; [|reflexivity].
  destruct (L b) as (l & v & Ev & _); [congruence|]. rewrite (No l (N l)) in Ev. discriminate.
Qed.
Print Assumptions C27_no_leak.

(** Findings. *)

(** A concrete allocator: the first address from 1 that is free. *)
Definition first_free {T} (h : @vheap T) : nat :=
  match List.find (fun a => match h a with None => true | Some _ => false end) (seq 1 (limit h)) with
  | Some a => a
  | None => S (limit h)
  end.

Example first_free_allocator : forall T, allocator (@first_free T).
Proof.
  intros T h B. unfold first_free.
  destruct (List.find _ _) as [a|] eqn:E.
  - apply find_some in E. destruct E as [I E]. apply in_seq in I. split; [lia|]. destruct (h a); [discriminate|reflexivity].
  - split; [lia|]. apply B. lia.
Qed.

(** Assigning a vector to itself loses its elements. *)
Theorem C27_self_assign_refuted :
  exists s, vrun first_free vsys0 [VNew 0; VPush 0 (AVal 7); VSize 0; VAssign 0 0; VSize 0] =
    Some (s, [VUnit; VUnit; VNum 1; VUnit; VNum 0]).
Proof. eexists. vm_compute. reflexivity. Qed.
Print Assumptions C27_self_assign_refuted.

(** pop_back on an empty vector: the check `m_CurrentUsedSize < 0` never holds,
    the vector then claims to have SIZE_MAX elements. *)
Theorem C27_pop_empty_refuted : forall alloc : @vheap Z -> nat,
  exists s, vrun alloc vsys0 [VNew 0; VPop 0; VSize 0] = Some (s, [VUnit; VUnit; VNum (2 ^ 64 - 1)]).
Proof. intros alloc. eexists. reflexivity. Qed.
Print Assumptions C27_pop_empty_refuted.

(** push_back of a reference to an element of the vector itself reads the array
    that growing has freed. *)
Theorem C27_push_own_element_refuted :
  exists s, vrun first_free vsys0 (VNew 0 :: repeat (VPush 0 (AVal 5)) 7 ++ [VGet 0 0]) =
              Some (s, repeat VUnit 8 ++ [VVal 5]) /\
    vstep first_free s (VPush 0 (AElem 0 0)) = None.
Proof. eexists. split; vm_compute; reflexivity. Qed.
Print Assumptions C27_push_own_element_refuted.

(** insert of a reference to an element behind the position inserts another value:
    [1; 2] with insert(begin(), v[1]) gives [1; 1; 2] instead of [2; 1; 2]. *)
Theorem C27_insert_own_element_refuted :
  exists s, vrun first_free vsys0
      [VNew 0; VPush 0 (AVal 1); VPush 0 (AVal 2); VGet 0 1; VInsert 0 0 (AElem 0 1); VGet 0 0; VGet 0 1; VGet 0 2] =
    Some (s, [VUnit; VUnit; VUnit; VVal 2; VIter (Some 0); VVal 1; VVal 1; VVal 2]).
Proof. eexists. vm_compute. reflexivity. Qed.
Print Assumptions C27_insert_own_element_refuted.

(** at(size()) passes the assertion and returns a slot behind the elements: after
    six push_back and one pop_back, at(5) is the removed element. *)
Theorem C27_at_size_refuted :
  exists s, vrun first_free vsys0 (VNew 0 :: map (fun x => VPush 0 (AVal x)) [1; 2; 3; 4; 5; 6] ++ [VPop 0; VSize 0; VGet 0 5]) =
    Some (s, repeat VUnit 8 ++ [VNum 5; VVal 6]).
Proof. eexists. vm_compute. reflexivity. Qed.
Print Assumptions C27_at_size_refuted.

(** The hypotheses are met ([first_free_allocator] is an allocator). *)
Example C27_ex_run : exists sp rs,
  qrun no_seqs ([VNew 0; VPush 0 (AVal 1); VPush 0 (AVal 2); VInsert 0 1 (AVal 9); VCopy 1 0; VPush 1 (AElem 0 2);
      VErase 0 0; VResize 0 4 7; VPop 0; VAssign 1 0; VDestroy 0; VGet 1 2]) sp rs /\
  sp 0%nat = None /\ sp 1%nat = Some [9; 2; 7] /\ last rs VUnit = VVal 7.
Proof.
  do 2 eexists. split.
  - eapply QRunCons; [apply QNew; reflexivity|].
    eapply QRunCons; [eapply QPush; [reflexivity|apply ArgVal]|].
    eapply QRunCons; [eapply QPush; [reflexivity|apply ArgVal]|].
    eapply QRunCons; [eapply (QInsert _ 0%nat [1] [2]); [reflexivity|apply ArgVal]|].
    eapply QRunCons; [eapply QCopy; reflexivity|].
    eapply QRunCons; [eapply QPush; [reflexivity|apply (ArgElem _ _ 0%nat 2%nat [1; 9; 2]); [discriminate|reflexivity|reflexivity]]|].
    eapply QRunCons; [eapply (QErase _ 0%nat []); reflexivity|].
    eapply QRunCons; [eapply (QResize _ 0%nat _ 4%nat); reflexivity|].
    eapply QRunCons; [eapply (QPop _ 0%nat [9; 2; 7] 7); reflexivity|].
    eapply QRunCons; [eapply QAssign; [discriminate|reflexivity|reflexivity]|].
    eapply QRunCons; [eapply QDestroy; reflexivity|].
    eapply QRunCons; [eapply (QGet _ 1%nat _ 2%nat); reflexivity|].
    apply QRunNil.
  - repeat split; reflexivity.
Qed.
