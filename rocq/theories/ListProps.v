(** Properties of SourceHook::List (C26). *)
From Coq Require Import List ZArith Bool Arith Lia Sorted.
From Verif Require Import Seq ListModel ListSpec ListProofs ListRefine.
Import ListNotations.
Local Open Scope nat_scope.

(** C26: every sequence of operations that is possible on sequences (iterators
    belong to the list they are used with, new nodes get unused addresses) is
    defined, gives the results it gives on sequences, and afterwards every list
    holds its sequence: walking forward with iterators visits the elements in
    order, walking backward visits them in the opposite order; the allocated
    nodes are those of the lists. *)
Theorem C26_sequence : forall (T : Type) (eqb ltb : T -> T -> bool) ops sp rs,
  srun eqb ltb sp0 ops sp rs ->
  exists s, run eqb ltb sys0 ops = Some (s, rs) /\
    (forall l, sp l = None -> s_lists s l = None) /\
    (forall l x, sp l = Some x ->
       exists o first final,
         s_lists s l = Some o /\ l_head o = sl_end x /\ l_size o = Z.of_nat (length (sl_elems x)) /\
         get_next (s_heap s) (l_head o) = Some first /\
         walk get_next (S (length (sl_elems x))) (s_heap s) first (l_head o) = Some (map snd (sl_elems x)) /\
         get_prev (s_heap s) (l_head o) = Some final /\
         walk get_prev (S (length (sl_elems x))) (s_heap s) final (l_head o) = Some (rev (map snd (sl_elems x)))) /\
    (forall a, s_heap s a <> None <-> exists l x, sp l = Some x /\ In a (poss x)).
Proof.
  intros T eqb ltb ops sp rs S.
  destruct (run_refines eqb ltb ops sys0 sp0 sp rs (rel0) S) as (s & E & R).
  exists s. split; [exact E|]. split; [apply (rl_none _ _ R)|]. split.
  - intros l x Ex. destruct (rel_walks eqb ltb s sp l x R Ex) as (o & b & Eo & Eb & W1 & e & Ee & W2).
    exists o, b, e. destruct (rl_some _ _ R _ _ Ex) as [Eo' _]. rewrite Eo in Eo'. inversion Eo'; subst. repeat split; auto.
  - intros a. split.
    + intros H. apply (rl_leak _ _ R). unfold get_next. destruct (s_heap s a); [discriminate|congruence].
    + intros (l & x & Ex & I) N. destruct (rl_some _ _ R _ _ Ex) as [_ L].
      apply (lrep_live _ _ _ L I). unfold get_next. rewrite N. reflexivity.
Qed.
Print Assumptions C26_sequence.

(** C26: an iterator to an element stays valid, and the element keeps its value,
    across every operation on any list that does not remove this element or
    write to it. *)
Theorem C26_iterators : forall (T : Type) (eqb ltb : T -> T -> bool) ops sp rs o sp' r p v,
  srun eqb ltb sp0 ops sp rs -> sstep eqb ltb sp o sp' r ->
  element sp p v -> ~ touches eqb sp o p ->
  element sp' p v /\
  exists s s', run eqb ltb sys0 ops = Some (s, rs) /\ step eqb ltb s o = Some (s', r) /\
    step eqb ltb s (ODeref p) = Some (s, RVal v) /\ step eqb ltb s' (ODeref p) = Some (s', RVal v).
Proof.
  intros T eqb ltb ops sp rs o sp' r p v S St El Nt.
  assert (El' : element sp' p v).
  { destruct El as (l0 & x0 & E0 & I0).
    assert (K : forall l x, (l = l0 -> sp l = Some x0 -> In (p, v) (sl_elems x)) -> element (mset sp l (Some x)) p v).
    { intros l x H. destruct (Nat.eq_dec l l0) as [->|N].
      - exists l0, x. unfold mset. rewrite Nat.eqb_refl. auto.
      - exists l0, x0. unfold mset. destruct (Nat.eqb_spec l0 l); [congruence|auto]. }
    destruct St as [l o x r U|o r Q|l x E].
    - destruct U; apply K; intros El E1; subst; cbn [sl_elems]; try congruence.
      + (* assign *) exfalso. apply Nt. cbn. rewrite E1. eauto.
      + rewrite E1 in H; inversion H; subst. apply in_or_app. auto.
      + rewrite E1 in H; inversion H; subst. right. exact I0.
      + rewrite E1 in H; inversion H; subst. rewrite H1, in_app_iff in I0. rewrite in_app_iff. cbn. tauto.
      + rewrite E1 in H; inversion H; subst. rewrite H1, in_app_iff in I0. rewrite in_app_iff. cbn in *. tauto.
      + rewrite E1 in H; inversion H; subst. apply in_or_app. auto.
      + rewrite E1 in H; inversion H; subst. rewrite H0, in_app_iff in I0. rewrite in_app_iff. cbn in *.
        destruct I0 as [I0|[I0|I0]]; auto. inversion I0; subst. exfalso. apply Nt. reflexivity.
      + rewrite E1 in H; inversion H; subst. rewrite H0, in_app_iff in I0. rewrite in_app_iff. cbn in *.
        destruct I0 as [I0|[I0|I0]]; auto. inversion I0; subst. exfalso. apply Nt. exists s, u, v, w. auto.
      + exfalso. apply Nt. cbn. rewrite E1. eauto.
      + rewrite E1 in H; inversion H; subst. rewrite H0, in_app_iff in I0. rewrite in_app_iff. cbn in *.
        destruct I0 as [I0|[I0|I0]]; auto. inversion I0; subst. exfalso. apply Nt. reflexivity.
    - exists l0, x0. auto.
    - exists l0, x0. unfold mset. destruct (Nat.eqb_spec l0 l) as [->|]; [|auto].
      exfalso. apply Nt. cbn. eauto. }
  split; [exact El'|].
  destruct (run_refines eqb ltb ops sys0 sp0 sp rs rel0 S) as (s & E & R).
  destruct (step_refines eqb ltb s sp o sp' r R St) as (s' & E' & R').
  exists s, s'. split; [exact E|]. split; [exact E'|]. split.
  - destruct El as (l & x & Ex & Ix). exact (query_refines eqb ltb s sp _ _ R (SDeref eqb sp l x p v Ex Ix)).
  - destruct El' as (l & x & Ex & Ix). exact (query_refines eqb ltb s' sp' _ _ R' (SDeref eqb sp' l x p v Ex Ix)).
Qed.
Print Assumptions C26_iterators.

(** C26: push_sorted keeps a sorted list sorted ([<] a strict weak order). *)
Definition sorted {T} (ltb : T -> T -> bool) (l : list (nat * T)) : Prop :=
  StronglySorted (fun a b => ltb (snd b) (snd a) = false) l.

Theorem C26_push_sorted : forall (T : Type) (eqb ltb : T -> T -> bool),
  (forall a b, ltb a b = true -> ltb b a = false) ->
  (forall a b c, ltb b a = false -> ltb c b = false -> ltb c a = false) ->
  forall sp l v a sp' r x x',
  sp l = Some x -> sorted ltb (sl_elems x) ->
  sstep eqb ltb sp (OPushSorted l v a) sp' r -> sp' l = Some x' -> sorted ltb (sl_elems x').
Proof.
  intros T eqb ltb As Tr sp l v a sp' r x x' Ex So St Ex'. inversion St as [l1 o x1 r1 U| ? ? Q |]; subst.
  2: { inversion Q. }
  inversion U as [| | | | |l2 s2 v2 a2 u w E2 F2 D2 H8 H9| | | | | | |]; subst.
  unfold mset in Ex'. rewrite Nat.eqb_refl in Ex'. inversion Ex'; subst. cbn [sl_elems].
  rewrite Ex in E2. inversion E2; subst. rewrite D2 in So. unfold sorted in *.
  clear - So H8 H9 As Tr. induction u as [|y u IH]; cbn [app] in *.
  - constructor; [exact So|]. destruct w as [|z w]; [constructor|].
    pose proof (H9 z w eq_refl) as L. apply As in L. constructor; [exact L|].
    inversion So as [|? ? S1 F1]; subst. eapply Forall_impl; [|exact F1]. cbn. intros q Hq. eapply Tr; eauto.
  - inversion So as [|? ? S1 F1]; subst. constructor.
    + apply IH; auto. intros q I. apply H8. right. exact I.
    + apply Forall_app in F1. destruct F1 as [F1 F2]. apply Forall_app. split; [exact F1|].
      constructor; [|exact F2]. cbn. apply H8. left. reflexivity.
Qed.
Print Assumptions C26_push_sorted.

(** C26: when all lists have been destroyed no memory is left. *)
Theorem C26_no_leak : forall (T : Type) (eqb ltb : T -> T -> bool) ops sp rs s,
  srun eqb ltb sp0 ops sp rs -> run eqb ltb sys0 ops = Some (s, rs) ->
  (forall l, sp l = None) -> forall a, s_heap s a = None.
Proof.
  intros T eqb ltb ops sp rs s S E N a.
  destruct (C26_sequence T eqb ltb ops sp rs S) as (s' & E' & _ & _ & L). rewrite E in E'. inversion E'; subst.
  destruct (s_heap s' a) eqn:H; [|reflexivity].
  destruct (proj1 (L a)) as (l & x & Ex & _); [congruence|]. rewrite N in Ex. discriminate.
Qed.
Print Assumptions C26_no_leak.

(** Finding: assigning a list to itself empties it (operator= clears first). *)
Theorem C26_self_assign_refuted :
  exists s s', run Z.eqb Z.ltb sys0 [ONew 0 1; OPushBack 0 7%Z 2] = Some (s, [RUnit; RUnit]) /\
    step Z.eqb Z.ltb s (OSize 0) = Some (s, RSize 1) /\
    step Z.eqb Z.ltb s (OAssign 0 0 []) = Some (s', RUnit) /\
    step Z.eqb Z.ltb s' (OSize 0) = Some (s', RSize 0).
Proof. do 2 eexists. split; [reflexivity|]. split; [reflexivity|]. split; reflexivity. Qed.
Print Assumptions C26_self_assign_refuted.

(** The hypotheses are met by a history with two lists. *)
Definition ex_ops : list (@op Z) :=
  [ONew 0 10; OPushBack 0 5%Z 11; OPushFront 0 3%Z 12; OPushSorted 0 4%Z 13; ONew 1 20;
   OAssign 1 0 [21; 22; 23]; OErase 0 13; ORemove 1 5%Z; OInsert 1 21 9%Z 13; ODestroy 0].
Example C26_ex : exists sp rs, srun Z.eqb Z.ltb sp0 ex_ops sp rs /\
  sp 0 = None /\ exists x, sp 1 = Some x /\ map snd (sl_elems x) = [9; 3; 4]%Z.
Proof.
  assert (F : forall (sp : @sstate Z) a, a <> 0 ->
    (forall l, l = 0 \/ l = 1 -> match sp l with Some s => ~ In a (poss s) | None => True end) ->
    (forall l, l <> 0 -> l <> 1 -> sp l = None) -> fresh sp a).
  { intros sp a A H1 H2. split; [exact A|]. intros l s E.
    destruct (Nat.eq_dec l 0) as [->|]; [specialize (H1 0 (or_introl eq_refl)); rewrite E in H1; exact H1|].
    destruct (Nat.eq_dec l 1) as [->|]; [specialize (H1 1 (or_intror eq_refl)); rewrite E in H1; exact H1|].
    rewrite H2 in E; [discriminate|assumption..]. }
  Ltac fr F := apply F; [discriminate
     |intros l0 [->| ->]; cbn; [try exact I; try (intros Hin; repeat destruct Hin as [Hin|Hin]; try discriminate Hin; exact Hin)..]
     |intros l0 N0 N1; unfold mset; destruct (Nat.eqb_spec l0 0); [contradiction|destruct (Nat.eqb_spec l0 1); [contradiction|reflexivity]]].
  do 2 eexists. split.
  - eapply SRunCons. { apply StepUpd with (l := 0). apply SNew; [reflexivity|fr F]. }
    eapply SRunCons. { apply StepUpd with (l := 0). apply SPushBack; [reflexivity|fr F]. }
    eapply SRunCons. { apply StepUpd with (l := 0). apply SPushFront; [reflexivity|fr F]. }
    eapply SRunCons.
    { apply StepUpd with (l := 0). apply SPushSorted with (u := [(12, 3%Z)]) (w := [(11, 5%Z)]); [reflexivity|fr F|reflexivity| |].
      - intros x [<-|[]]. reflexivity.
      - intros x w E. inversion E; subst. reflexivity. }
    eapply SRunCons. { apply StepUpd with (l := 1). apply SNew; [reflexivity|fr F]. }
    eapply SRunCons.
    { apply StepUpd with (l := 1). eapply SAssign; [reflexivity|reflexivity|discriminate| |reflexivity].
      cbn [fresh_all]. repeat split; try discriminate; try (fr F); try (cbn; intuition discriminate). }
    eapply SRunCons.
    { apply StepUpd with (l := 0). eapply SErase with (u := [(12, 3%Z)]); reflexivity. }
    eapply SRunCons.
    { apply StepUpd with (l := 1). eapply SRemove with (u := [(21, 3%Z); (22, 4%Z)]); [reflexivity|reflexivity|reflexivity|].
      intros y [<-|[<-|[]]]; reflexivity. }
    eapply SRunCons.
    { apply StepUpd with (l := 1). eapply SInsertAt with (u := []); [reflexivity|fr F|reflexivity]. }
    eapply SRunCons. { eapply StepDestroy. reflexivity. }
    apply SRunNil.
  - split; [reflexivity|]. eexists. split; reflexivity.
Qed.
