(** C75: the list of user messages, and the replaced bytes of Error. *)
From Coq Require Import List ZArith Bool String Lia.
From Verif Require Import UmsgModel UmsgSpec UmsgProofs.
Import ListNotations.
Local Open Scope Z_scope.

(** The game says no at the end: the list is extended by exactly the game's messages, in order, and the
    whole memory is as before. *)
Theorem C75_cache : forall w m target detour game l,
  exists m', CacheUserMessages w m target detour game SaysNo l = (Back, m', l ++ game) /\ forall x, m' x = m x.
Proof.
  intros w m target detour game l. eexists. unfold CacheUserMessages. split; [rewrite loop_spec; reflexivity|].
  intros x. unfold patch. apply (restore m target (233 :: le4 _)).
Qed.
Print Assumptions C75_cache.

(** The game calls Error at the end: the same on x86, wherever the two functions are. *)
Theorem C75_cache_error_32 : forall m target detour game l, 0 <= detour < 2 ^ 32 ->
  exists m', CacheUserMessages 32 m target detour game CallsError l = (Back, m', l ++ game) /\ forall x, m' x = m x.
Proof.
  intros m target detour game l D. unfold CacheUserMessages. rewrite jump_patch.
  pose proof (near_32 target detour D) as N. apply reach in N; [|lia|exact D]. rewrite N, Z.eqb_refl.
  eexists. split; [rewrite loop_spec; reflexivity|]. intros x. apply (restore m target (233 :: le4 _)).
Qed.
Print Assumptions C75_cache_error_32.

(** On x86-64 exactly when Error and Detour_Error are within 2^31 of each other. *)
Theorem C75_cache_error_64 : forall m target detour game l, 0 <= detour < 2 ^ 64 ->
  (near 64 target detour <->
   exists m', CacheUserMessages 64 m target detour game CallsError l = (Back, m', l ++ game) /\ forall x, m' x = m x).
Proof.
  intros m target detour game l D. unfold CacheUserMessages. rewrite jump_patch. split.
  - intros N. apply reach in N; [|lia|exact D]. rewrite N, Z.eqb_refl.
    eexists. split; [rewrite loop_spec; reflexivity|]. intros x. apply (restore m target (233 :: le4 _)).
  - intros (m' & E & _). apply reach; [lia|exact D|].
    destruct (Z.eqb_spec ((target + 5 + sx32 ((detour - (target + 5)) mod 2 ^ 32)) mod 2 ^ 64) detour) as [Q|Q]; [exact Q|].
    injection E as E _ _. discriminate E.
Qed.
Print Assumptions C75_cache_error_64.

Definition some_msgs : list umsg := [Umsg "Geiger" 1; Umsg "SayText" (-1); Umsg "Geiger" 2].
Example C75_near : near 64 4096 8192 /\ 0 <= 8192 < 2 ^ 64.
Proof. split; [exists 4091; split; [lia|reflexivity]|lia]. Qed.

(** Refuted for x86-64 in general: with the libraries far apart, as shared libraries may be, the processor
    goes somewhere else, and the bytes of Error are not put back. *)
Theorem C75_far_refuted : exists a m', a <> 140737488355328 /\
  CacheUserMessages 64 (fun _ => 144) 4096 140737488355328 some_msgs CallsError [] = (Lost (Some a), m', some_msgs) /\
  m' 4096 <> 144.
Proof. do 2 eexists. split; [|split; [vm_compute; reflexivity|vm_compute; discriminate]]. discriminate. Qed.
Print Assumptions C75_far_refuted.

(** FindUserMessage finds the number of the first message of that name and its size, or -1 if there is none. *)
Theorem C75_find : forall l name,
  (forall i z, FindUserMessage true l name = (i, Some z) ->
     numbered l name i /\ exists u, nth_error l (Z.to_nat i) = Some u /\ u_size u = z) /\
  (forall i, FindUserMessage true l name = (i, None) -> i = -1 /\ forall u, In u l -> u_name u <> name).
Proof.
  intros l name. unfold FindUserMessage. pose proof (find_from_spec name l 0) as H.
  destruct (find_from name 0 l) as [j [z|]]; split.
  - intros i z' E. injection E as <- <-. destruct H as (k & u & J & X & Y & Z & F). subst j.
    rewrite Z.add_0_l, Nat2Z.id. split.
    + split; [lia|]. rewrite Nat2Z.id. split; [exists u; auto|].
      intros j u' B Q. apply (F (Z.to_nat j)); [lia|exact Q].
    + exists u. auto.
  - intros i E. discriminate E.
  - intros i z' E. discriminate E.
  - intros i E. injection E as <-. exact H.
Qed.
Print Assumptions C75_find.

(** GetUserMessage gives the message of that number for the numbers below the count and null for others,
    without an access outside the vector. *)
Theorem C75_get : forall l i,
  (0 <= i < GetUserMessageCount true l -> exists u, nth_error l (Z.to_nat i) = Some u /\ GetUserMessage true l i = Some (Some (u_name u, u_size u))) /\
  (~ 0 <= i < GetUserMessageCount true l -> GetUserMessage true l i = Some None).
Proof.
  intros l i. unfold GetUserMessageCount, GetUserMessage. cbn [negb orb]. split.
  - intros H. destruct (Z.ltb_spec i 0); [lia|]. destruct (Z.leb_spec (Z.of_nat (List.length l)) i); [lia|]. cbn [orb].
    destruct (nth_error l (Z.to_nat i)) as [u|] eqn:E; [exists u; auto|]. apply nth_error_None in E. lia.
  - intros H. destruct (Z.ltb_spec i 0); [reflexivity|]. destruct (Z.leb_spec (Z.of_nat (List.length l)) i); [reflexivity|]. lia.
Qed.
Print Assumptions C75_get.

(** Names and numbers are inverse to each other: the message found has the name looked for; and the number
    of a message is found from its name, if the game gives no name twice. *)
Theorem C75_roundtrip : forall l name i z, FindUserMessage true l name = (i, Some z) -> GetUserMessage true l i = Some (Some (name, z)).
Proof.
  intros l name i z E. destruct (proj1 (C75_find l name) i z E) as [(B & _ & _) (u & X & Z)].
  destruct (proj1 (C75_find l name) i z E) as [(_ & (u' & X' & N) & _) _]. rewrite X in X'. injection X' as <-.
  assert (R : 0 <= i < GetUserMessageCount true l).
  { unfold GetUserMessageCount. cbn [negb]. assert (Z.to_nat i < List.length l)%nat by (apply nth_error_Some; congruence). lia. }
  destruct (proj1 (C75_get l i) R) as (v & Y & G). rewrite X in Y. injection Y as <-. rewrite G, N, Z. reflexivity.
Qed.
Print Assumptions C75_roundtrip.

Theorem C75_roundtrip_unique : forall l i name z, NoDup (map u_name l) ->
  GetUserMessage true l i = Some (Some (name, z)) -> FindUserMessage true l name = (i, Some z).
Proof.
  intros l i name z U G. destruct (Z_lt_ge_dec i 0) as [L|L].
  { rewrite (proj2 (C75_get l i)) in G by lia. discriminate G. }
  destruct (Z_lt_ge_dec i (GetUserMessageCount true l)) as [B|B].
  2:{ rewrite (proj2 (C75_get l i)) in G by lia. discriminate G. }
  destruct (proj1 (C75_get l i)) as (u & X & Y); [lia|]. rewrite Y in G. injection G as N Z.
  pose proof (C75_find l name) as [F1 F2]. destruct (FindUserMessage true l name) as [j [z'|]] eqn:E.
  - destruct (F1 j z' eq_refl) as [(J & (v & V & W) & _) (v' & V' & W')]. rewrite V in V'. injection V' as <-.
    assert (Q : Z.to_nat i = Z.to_nat j).
    { apply (proj1 (NoDup_nth_error (map u_name l)) U).
      - rewrite map_length. apply nth_error_Some. congruence.
      - rewrite (map_nth_error u_name _ _ X), (map_nth_error u_name _ _ V). congruence. }
    assert (i = j) by lia. subst j. rewrite X in V. injection V as <-. rewrite <- W', Z. reflexivity.
  - exfalso. destruct (F2 j eq_refl) as [_ F]. apply (F u); [eapply nth_error_In; exact X|exact N].
Qed.
Print Assumptions C75_roundtrip_unique.
Example C75_unique : NoDup (map u_name [Umsg "Geiger" 1; Umsg "SayText" (-1)]) /\
  GetUserMessage true [Umsg "Geiger" 1; Umsg "SayText" (-1)] 1 = Some (Some ("SayText"%string, -1)).
Proof. split; [|reflexivity]. repeat constructor; cbn; intuition discriminate. Qed.
Example C75_first : FindUserMessage true some_msgs "Geiger" = (0, Some 1) /\ FindUserMessage true some_msgs "SayText" = (1, Some (-1)) /\
  FindUserMessage true some_msgs "x" = (-1, None).
Proof. repeat split. Qed.

(** For games without the iteration nothing is found and the count is -1. *)
Theorem C75_unsupported : forall l name i,
  FindUserMessage false l name = (-1, None) /\ GetUserMessage false l i = Some None /\ GetUserMessageCount false l = -1.
Proof. repeat split. Qed.
Print Assumptions C75_unsupported.
