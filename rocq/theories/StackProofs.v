(** CStack refines sequences; elements do not move. *)
From Coq Require Import List ZArith Bool Arith Lia.
From Verif Require Import Seq ListModel VecProofs StackModel StackSpec.
Import ListNotations.
Local Open Scope Z_scope.

Section Stack.
Context {T : Type}.
Implicit Types (h : @kheap T) (k : stack) (xs : list (option T)).

Lemma kset_eq h a x : kset h a x a = x.
Proof. apply mset_eq. Qed.
Lemma kset_ne h a x b : b <> a -> kset h a x b = h b.
Proof. apply mset_ne. Qed.
Lemma kbounded_set h a x : kbounded h -> kbounded (kset h a x).
Proof. intros B b L. cbn in L. rewrite kset_ne by lia. apply B. lia. Qed.

(** The sectors of [k] exist. *)
Definition has h k : Prop := NoDup (k_sectors k) /\ (forall a, In a (k_sectors k) -> h a <> None).

(** The element at index [i] is known to be [c]. *)
Definition at_is h k (i : nat) (c : option T) : Prop :=
  exists p, at_loc k (Z.of_nat i) = Some p /\ match c with Some v => kread h p = Some (Some v) | None => kread h p <> None end.

Record holds h k xs : Prop := Holds {
  hl_has : has h k;
  hl_used : k_used k = Z.of_nat (length xs);
  hl_room : k_used k <= 16 * Z.of_nat (length (k_sectors k));
  hl_at : forall i c, nth_error xs i = Some c -> at_is h k i c }.

Lemma at_loc_some k x : 0 <= x < 16 * Z.of_nat (length (k_sectors k)) ->
  exists a, at_loc k x = Some (a, x mod 16) /\ In a (k_sectors k) /\ nth_error (k_sectors k) (Z.to_nat (x / 16)) = Some a.
Proof.
  intros L. unfold at_loc, sector_size.
  assert (D : 0 <= x / 16 < Z.of_nat (length (k_sectors k))).
  { split; [apply Z.div_pos; lia|]. apply Z.div_lt_upper_bound; lia. }
  destruct (nth_error (k_sectors k) (Z.to_nat (x / 16))) as [a|] eqn:E.
  - exists a. split; [reflexivity|]. split; [|reflexivity]. eapply nth_error_In; eauto.
  - apply nth_error_None in E. lia.
Qed.

Lemma at_loc_in k x p : at_loc k x = Some p -> In (fst p) (k_sectors k).
Proof.
  unfold at_loc. destruct (nth_error (k_sectors k) (Z.to_nat (x / sector_size))) eqn:E; [|discriminate].
  cbn. intros H. inversion H. cbn. eapply nth_error_In; eauto.
Qed.

(** Different indices, different addresses. *)
Lemma at_loc_inj k x y p : NoDup (k_sectors k) -> 0 <= x -> 0 <= y -> at_loc k x = Some p -> at_loc k y = Some p -> x = y.
Proof.
  intros N X Y. unfold at_loc, sector_size.
  destruct (nth_error (k_sectors k) (Z.to_nat (x / 16))) as [a|] eqn:E1; [|discriminate].
  destruct (nth_error (k_sectors k) (Z.to_nat (y / 16))) as [b|] eqn:E2; [|discriminate].
  cbn. intros H1 H2. inversion H1; subst. inversion H2; subst.
  assert (Z.to_nat (x / 16) = Z.to_nat (y / 16)).
  { eapply NoDup_nth_error; [exact N| |congruence]. apply nth_error_Some. congruence. }
  pose proof (Z.div_mod x 16 ltac:(lia)). pose proof (Z.div_mod y 16 ltac:(lia)).
  assert (x / 16 = y / 16).
  { assert (0 <= x / 16) by (apply Z.div_pos; lia). assert (0 <= y / 16) by (apply Z.div_pos; lia). lia. }
  lia.
Qed.

(** What an operation on [k] may do to the heap. *)
Record kframe h k h' k' : Prop := KFrame {
  kf_old : forall a, ~ In a (k_sectors k) -> h a <> None -> h' a = h a;
  kf_new : forall a, ~ In a (k_sectors k') -> h' a <> None -> h a <> None /\ ~ In a (k_sectors k);
  kf_own : forall a, In a (k_sectors k') -> In a (k_sectors k) \/ h a = None;
  kf_bnd : kbounded h -> kbounded h' }.

Lemma kframe_refl h k k' : k_sectors k' = k_sectors k -> kframe h k h k'.
Proof. intros E. split; auto; rewrite ?E; auto. Qed.

Lemma kframe_trans h k h1 k1 h2 k2 : kframe h k h1 k1 -> kframe h1 k1 h2 k2 -> kframe h k h2 k2.
Proof.
  intros [A1 B1 C1 D1] [A2 B2 C2 D2]. split.
  - intros a N H. assert (E1 : h1 a = h a) by auto. rewrite <- E1. apply A2.
    + intros I. destruct (C1 a I); [contradiction|congruence].
    + congruence.
  - intros a N H. destruct (B2 a N H) as [H1 N1]. auto.
  - intros a I. destruct (C2 a I) as [I1|E]; [auto|].
    destruct (in_dec Nat.eq_dec a (k_sectors k)) as [|N]; [auto|]. right.
    destruct (h a) eqn:Ea; [|reflexivity]. rewrite <- Ea, <- (A1 a N); [exact E|congruence].
  - auto.
Qed.

Lemma kread_loc h k x p : has h k -> at_loc k x = Some p -> kread h p <> None.
Proof.
  intros [_ H] E. apply at_loc_in in E. apply H in E. unfold kread. destruct (h (fst p)); [discriminate|contradiction].
Qed.

Lemma kwrite_ok h p v : h (fst p) <> None ->
  exists h', kwrite h p v = Some h' /\ kread h' p = Some v /\ (forall q, q <> p -> kread h' q = kread h q) /\
    (forall a, a <> fst p -> h' a = h a) /\ (forall a, h' a <> None <-> h a <> None) /\ (kbounded h -> kbounded h').
Proof.
  intros L. unfold kwrite. destruct (h (fst p)) as [f|] eqn:E; [|contradiction]. cbn. eexists. split; [reflexivity|].
  split; [|split; [|split; [|split]]].
  - unfold kread. rewrite kset_eq. cbn. rewrite Z.eqb_refl. reflexivity.
  - intros [a i] N. unfold kread. cbn [fst snd]. destruct (Nat.eq_dec a (fst p)) as [->|Na].
    + rewrite kset_eq, E. cbn. destruct (Z.eqb_spec i (snd p)) as [->|]; [|reflexivity].
      exfalso. apply N. destruct p. reflexivity.
    + rewrite kset_ne by exact Na. reflexivity.
  - intros a N. apply kset_ne, N.
  - intros a. destruct (Nat.eq_dec a (fst p)) as [->|Na]; [rewrite kset_eq, E; split; discriminate|].
    rewrite kset_ne by exact Na. tauto.
  - apply kbounded_set.
Qed.

Lemma kframe_write h k h' k' (p : loc) : k_sectors k' = k_sectors k -> In (fst p) (k_sectors k) ->
  (forall a, a <> fst p -> h' a = h a) -> (forall a, h' a <> None <-> h a <> None) -> (kbounded h -> kbounded h') -> kframe h k h' k'.
Proof.
  intros E I F L B. split; auto.
  - intros a N _. apply F. intros ->. contradiction.
  - intros a N H. rewrite E in N. split; [apply L, H|exact N].
  - rewrite E. auto.
Qed.

Variable alloc : @kheap T -> nat.
Hypothesis Alloc : kallocator alloc.

Definition okk h k xs : Prop := holds h k xs /\ kbounded h.

(** A new sector at the end keeps all elements where they are. *)
Lemma at_loc_app k k' secs x p : k_sectors k' = k_sectors k ++ secs -> at_loc k x = Some p -> at_loc k' x = Some p.
Proof.
  intros E. unfold at_loc. rewrite E.
  destruct (nth_error (k_sectors k) (Z.to_nat (x / sector_size))) eqn:E1; [|discriminate].
  rewrite nth_error_app1 by (apply nth_error_Some; congruence). rewrite E1. auto.
Qed.

Lemma new_sector_ok h k : has h k -> kbounded h ->
  exists h' k', new_sector alloc h k = (h', k') /\ has h' k' /\ kframe h k h' k' /\ k_used k' = k_used k /\
    k_sectors k' = k_sectors k ++ [alloc h] /\ (forall a, h a <> None -> h' a = h a) /\ h' (alloc h) <> None /\
    (forall a, h' a <> None -> a = alloc h \/ h a <> None).
Proof.
  intros [N H] B. destruct (Alloc h B) as [An Af]. unfold new_sector. eexists _, _. split; [reflexivity|].
  assert (Nf : forall a, h a <> None -> a <> alloc h) by congruence.
  split; [|split; [|split; [|split; [|split; [|split]]]]]; cbn [k_sectors k_used].
  - split.
    + apply nodup_app_iff. split; [exact N|]. split; [constructor; [intros []|constructor]|].
      intros a I [E|[]]. subst a. apply (H _ I). exact Af.
    + intros a I. cbn [k_sectors] in I. apply in_app_iff in I. destruct I as [I|[<-|[]]].
      * rewrite kset_ne by (apply Nf, H, I). apply H, I.
      * rewrite kset_eq. discriminate.
  - split; cbn [k_sectors].
    + intros a _ L. apply kset_ne, Nf, L.
    + intros a Na L. assert (Ne : a <> alloc h) by (intros ->; apply Na, in_or_app; right; left; reflexivity).
      rewrite kset_ne in L by exact Ne. split; [exact L|]. intros I. apply Na, in_or_app. auto.
    + intros a I. apply in_app_iff in I. destruct I as [I|[<-|[]]]; auto.
    + apply kbounded_set.
  - reflexivity.
  - reflexivity.
  - intros a L. apply kset_ne, Nf, L.
  - rewrite kset_eq. discriminate.
  - intros a L. destruct (Nat.eq_dec a (alloc h)) as [->|Na]; [auto|]. rewrite kset_ne in L by exact Na. auto.
Qed.

Lemma kread_same h h' p : (forall a, h a <> None -> h' a = h a) -> kread h p <> None -> kread h' p = kread h p.
Proof.
  intros F. unfold kread. destruct (h (fst p)) eqn:E; [|congruence]. intros _. rewrite F by congruence. rewrite E. reflexivity.
Qed.

Lemma room_ok h k xs : okk h k xs ->
  exists h' k', room alloc h k = (h', k') /\ okk h' k' xs /\ kframe h k h' k' /\ k_used k' = k_used k /\
    k_used k < 16 * Z.of_nat (length (k_sectors k')) /\ (exists secs, k_sectors k' = k_sectors k ++ secs) /\
    (forall a, h a <> None -> h' a = h a).
Proof.
  intros [H B]. unfold room, sector_size. pose proof (hl_used _ _ _ H). pose proof (hl_room _ _ _ H).
  destruct (Z.geb_spec (k_used k / 16) (Z.of_nat (length (k_sectors k)))) as [G|G].
  - destruct (new_sector_ok h k (hl_has _ _ _ H) B) as (h' & k' & E & Hs & F & U & S & Hh & _).
    exists h', k'. split; [exact E|]. split; [|split; [exact F|split; [exact U|split; [|split; [eauto|exact Hh]]]]].
    + split; [|apply (kf_bnd _ _ _ _ F B)]. split; auto; try lia.
      * rewrite U, S, app_length. cbn [length]. lia.
      * intros i c E1. destruct (hl_at _ _ _ H i c E1) as (p & Ep & R). exists p. split; [eapply at_loc_app; eauto|].
        destruct c; [rewrite (kread_same h h') by (auto; congruence); exact R|rewrite (kread_same h h') by auto; exact R].
    + rewrite S, app_length. cbn [length]. lia.
  - exists h, k. split; [reflexivity|]. split; [split; assumption|]. split; [apply kframe_refl; reflexivity|].
    split; [reflexivity|]. split; [|split; [exists []; symmetry; apply app_nil_r|auto]].
    pose proof (Z.div_mod (k_used k) 16 ltac:(lia)). pose proof (Z.mod_pos_bound (k_used k) 16 ltac:(lia)). lia.
Qed.

(** Writing [c] to the element at [i] (at most one behind the last one). *)
Lemma holds_write h h' k xs ys i c p : holds h k xs -> at_loc k (Z.of_nat i) = Some p -> kread h' p = Some c ->
  (forall q, q <> p -> kread h' q = kread h q) -> (forall a, h' a <> None <-> h a <> None) ->
  (forall j d, nth_error ys j = Some d -> (j = i /\ (d = c \/ d = None)) \/ (j <> i /\ nth_error xs j = Some d)) ->
  Z.of_nat (length ys) <= 16 * Z.of_nat (length (k_sectors k)) ->
  holds h' (Stack (k_sectors k) (Z.of_nat (length ys))) ys.
Proof.
  intros H E Rp Ro L Hy Ln. destruct (hl_has _ _ _ H) as [N Hh]. split; cbn [k_used k_sectors]; auto.
  - split; cbn [k_sectors]; [exact N|]. intros a I. apply L, Hh, I.
  - intros j d Ej. destruct (Hy j d Ej) as [[-> D]|[Nj Ex]].
    + exists p. split; [exact E|]. destruct d as [v|]; [|congruence].
      destruct D as [<-|D]; [exact Rp|discriminate].
    + destruct (hl_at _ _ _ H j d Ex) as (q & Eq & Rq). exists q. split; [exact Eq|].
      assert (q <> p).
      { intros ->. apply Nj. apply Nat2Z.inj. eapply (at_loc_inj k); eauto; lia. }
      rewrite Ro by assumption. exact Rq.
Qed.

Definition kdenotes h (e : @ksrc T) (v : T) : Prop := kget h e = Some v.

Lemma kdenotes_same h h' e v : (forall a, h a <> None -> h' a = h a) -> kdenotes h e v -> kdenotes h' e v.
Proof.
  intros F. unfold kdenotes, kget. destruct e as [w|p]; [auto|].
  destruct (kread h p) eqn:E; [|discriminate]. rewrite (kread_same h h') by (auto; congruence). rewrite E. auto.
Qed.

Lemma push_stack_ok h k xs e v : okk h k xs -> kdenotes h e v ->
  exists h' k', push_stack alloc h k e = Some (h', k') /\ okk h' k' (xs ++ [Some v]) /\ kframe h k h' k' /\
    (exists secs, k_sectors k' = k_sectors k ++ secs).
Proof.
  intros O D. unfold push_stack. destruct (room_ok h k xs O) as (h1 & k1 & E1 & O1 & F1 & U1 & R1 & S1 & H1). rewrite E1.
  destruct O1 as [Ho B1]. pose proof (hl_used _ _ _ Ho) as U.
  destruct (at_loc_some k1 (k_used k1)) as (a & Ea & Ia & _); [lia|]. rewrite Ea. 
  assert (Dv := kdenotes_same h h1 e v H1 D). unfold kdenotes in Dv. rewrite Dv.
  destruct (kwrite_ok h1 (a, k_used k1 mod 16) (Some v)) as (h2 & E2 & Rp & Ro & Fo & Lo & Bo).
  { apply (hl_has _ _ _ Ho), Ia. }
  rewrite E2. eexists _, _. split; [reflexivity|].
  assert (Hk : Z.of_nat (length (xs ++ [Some v])) = k_used k1 + 1) by (rewrite app_length; cbn [length]; lia).
  split; [|split; [|exact S1]].
  - split; [|auto]. rewrite <- Hk. rewrite U in Ea, Rp, Ro. 
    eapply (holds_write h1 h2 k1 xs _ (length xs) (Some v)); eauto.
    + intros j d Ej. destruct (Nat.eq_dec j (length xs)) as [->|N].
      * left. split; [reflexivity|]. rewrite nth_error_app2, Nat.sub_diag in Ej by lia. cbn in Ej. left. congruence.
      * right. split; [exact N|]. rewrite nth_error_app1 in Ej; [exact Ej|].
        assert (j < length (xs ++ [Some v]))%nat by (apply nth_error_Some; congruence). rewrite app_length in H. cbn in H. lia.
    + lia.
  - eapply kframe_trans; [exact F1|]. eapply kframe_write with (p := (a, k_used k1 mod 16)); auto.
Qed.

Lemma make_next_ok h k xs : okk h k xs ->
  exists h' k' p, make_next_stack alloc h k = Some (h', k', p) /\ okk h' k' (xs ++ [None]) /\ kframe h k h' k' /\
    at_loc k' (Z.of_nat (length xs)) = Some p /\ (exists secs, k_sectors k' = k_sectors k ++ secs).
Proof.
  intros O. unfold make_next_stack. destruct (room_ok h k xs O) as (h1 & k1 & E1 & O1 & F1 & U1 & R1 & S1 & H1). rewrite E1.
  destruct O1 as [Ho B1]. pose proof (hl_used _ _ _ Ho) as U.
  destruct (at_loc_some k1 (k_used k1)) as (a & Ea & Ia & _); [lia|]. rewrite Ea.
  eexists _, _, _. split; [reflexivity|]. split; [|split; [|split; [|exact S1]]].
  - split; [|exact B1]. destruct (hl_has _ _ _ Ho) as [N Hh]. split; cbn [k_used k_sectors].
    + split; assumption.
    + rewrite app_length. cbn [length]. lia.
    + lia.
    + intros j d Ej. destruct (Nat.eq_dec j (length xs)) as [->|Nj].
      * rewrite nth_error_app2, Nat.sub_diag in Ej by lia. cbn in Ej. inversion Ej; subst d.
        exists (a, k_used k1 mod 16). rewrite <- U. split; [exact Ea|]. eapply kread_loc; [apply (hl_has _ _ _ Ho)|exact Ea].
      * assert (j < length (xs ++ [None]))%nat by (apply nth_error_Some; congruence). rewrite app_length in H. cbn in H.
        rewrite nth_error_app1 in Ej by lia. apply (hl_at _ _ _ Ho j d Ej).
  - eapply kframe_trans; [exact F1|]. apply kframe_refl. reflexivity.
  - cbn [k_sectors]. rewrite <- U. exact Ea.
Qed.

Lemma shorten_ok h k xs ys : okk h k (xs ++ ys) -> okk h (Stack (k_sectors k) (Z.of_nat (length xs))) xs.
Proof.
  intros [H B]. split; [|exact B]. destruct H as [A U R At]. rewrite app_length in U. split; cbn [k_sectors k_used]; auto; try lia.
  intros i c E. apply At. rewrite nth_error_app1; [exact E|]. apply nth_error_Some. congruence.
Qed.

Lemma set_stack_ok h k xs c ys v : okk h k (xs ++ c :: ys) ->
  exists p h', at_loc k (Z.of_nat (length xs)) = Some p /\ kwrite h p (Some v) = Some h' /\
    okk h' k (xs ++ Some v :: ys) /\ kframe h k h' k.
Proof.
  intros [H B]. pose proof (hl_used _ _ _ H) as U. pose proof (hl_room _ _ _ H). rewrite app_length in U. cbn [length] in U.
  destruct (at_loc_some k (Z.of_nat (length xs))) as (a & Ea & Ia & _); [lia|].
  destruct (kwrite_ok h (a, Z.of_nat (length xs) mod 16) (Some v)) as (h2 & E2 & Rp & Ro & Fo & Lo & Bo).
  { apply (hl_has _ _ _ H), Ia. }
  eexists _, h2. split; [exact Ea|]. split; [exact E2|]. split.
  - split; [|auto]. replace k with (Stack (k_sectors k) (Z.of_nat (length (xs ++ Some v :: ys)))).
    2: { destruct k as [ss u]. cbn in *. f_equal. rewrite app_length. cbn [length]. lia. }
    eapply (holds_write h h2 k _ _ (length xs) (Some v)); eauto.
    + intros j d Ej. destruct (Nat.eq_dec j (length xs)) as [->|N].
      * left. split; [reflexivity|]. rewrite nth_error_app2, Nat.sub_diag in Ej by lia. cbn in Ej. left. congruence.
      * right. split; [exact N|]. destruct (Nat.lt_ge_cases j (length xs)).
        -- rewrite nth_error_app1 in * by lia. exact Ej.
        -- rewrite nth_error_app2 in * by lia. destruct (j - length xs)%nat as [|m] eqn:Em; [lia|]. exact Ej.
    + rewrite app_length. cbn [length]. lia.
  - eapply kframe_write with (p := (a, Z.of_nat (length xs) mod 16)); auto.
Qed.

(** Copying. *)
Lemma copy_slots_ok (n : nat) : forall h dst src i, dst <> src -> h dst <> None -> h src <> None ->
  exists h', copy_slots n h dst src i = Some h' /\
    (forall j, i <= j < i + Z.of_nat n -> kread h' (dst, j) = kread h (src, j)) /\
    (forall j, j < i -> kread h' (dst, j) = kread h (dst, j)) /\
    (forall a, a <> dst -> h' a = h a) /\ (forall a, h' a <> None <-> h a <> None) /\ (kbounded h -> kbounded h').
Proof.
  induction n as [|n IH]; intros h dst src i N Ld Ls; cbn [copy_slots].
  - exists h. split; [reflexivity|]. split; [intros; lia|]. repeat split; auto.
  - destruct (h src) as [f|] eqn:Es; [|contradiction]. unfold kread at 1. cbn [fst snd]. rewrite Es. cbn.
    destruct (kwrite_ok h (dst, i) (f i) Ld) as (h1 & E1 & Rp & Ro & Fo & Lo & Bo). rewrite E1.
    destruct (IH h1 dst src (i + 1) N) as (h2 & E2 & R2 & R2' & F2 & L2 & B2); [apply Lo, Ld|apply Lo; congruence|].
    exists h2. split; [exact E2|]. split; [|split; [|split; [|split; [|auto]]]].
    + intros j J. destruct (Z.eq_dec j i) as [->|Nj].
      * rewrite R2' by lia. rewrite Rp. unfold kread. cbn. rewrite Es. reflexivity.
      * rewrite R2 by lia. apply Ro. congruence.
    + intros j J. rewrite R2' by lia. apply Ro. intros E. inversion E. lia.
    + intros a Na. rewrite F2, Fo by (cbn; auto). reflexivity.
    + intros a. rewrite L2. apply Lo.
Qed.

Lemma copy_sectors_ok : forall l h k, has h k -> kbounded h -> (forall a, In a l -> h a <> None) ->
  (forall a, In a l -> ~ In a (k_sectors k)) ->
  exists h' k' new, copy_sectors alloc h k l = Some (h', k') /\ has h' k' /\ kframe h k h' k' /\
    k_used k' = k_used k /\ k_sectors k' = k_sectors k ++ new /\ length new = length l /\
    (forall a, h a <> None -> h' a = h a) /\
    (forall j a b i, nth_error l j = Some a -> nth_error new j = Some b -> 0 <= i < 16 -> kread h' (b, i) = kread h (a, i)).
Proof.
  induction l as [|src l IH]; intros h k Hk B La Nk; cbn [copy_sectors].
  - exists h, k, []. split; [reflexivity|]. split; [exact Hk|]. split; [apply kframe_refl; reflexivity|].
    split; [reflexivity|]. split; [symmetry; apply app_nil_r|]. split; [reflexivity|]. split; [auto|].
    intros [|j] a b i E; discriminate.
  - destruct (new_sector_ok h k Hk B) as (h1 & k1 & E1 & H1 & F1 & U1 & S1 & Hh1 & L1 & Lo1). rewrite E1.
    destruct (Alloc h B) as [An Af].
    assert (Ns : alloc h <> src) by (intros E; apply (La src); [left; reflexivity|congruence]).
    destruct (copy_slots_ok 16 h1 (alloc h) src 0 Ns) as (h2 & E2 & R2 & _ & F2 & L2 & B2).
    { exact L1. } { rewrite Hh1; apply La; left; reflexivity. }
    rewrite E2.
    assert (Fr2 : kframe h1 k1 h2 k1).
    { apply kframe_write with (p := (alloc h, 0)); auto. cbn. rewrite S1. apply in_or_app. right. left. reflexivity. }
    assert (H2 : has h2 k1) by (destruct H1 as [A C]; split; [exact A|]; intros a I; apply L2, C, I).
    destruct (IH h2 k1 H2 (B2 (kf_bnd _ _ _ _ F1 B))) as (h3 & k3 & new & E3 & H3 & F3 & U3 & S3 & Ln & Hh3 & R3).
    { intros a I. apply L2. rewrite Hh1; apply La; right; exact I. }
    { intros a I. rewrite S1, in_app_iff. intros [I2|[<-|[]]].
      - apply (Nk a); [right; exact I|exact I2].
      - apply (La (alloc h)); [right; exact I|exact Af]. }
    exists h3, k3, (alloc h :: new). split; [exact E3|]. split; [exact H3|].
    split; [eapply kframe_trans; [exact F1|]; eapply kframe_trans; [exact Fr2|exact F3]|].
    split; [congruence|]. split; [rewrite S3, S1, <- app_assoc; reflexivity|]. split; [cbn; lia|].
    assert (Hold : forall a, h a <> None -> h2 a = h a).
    { intros a L. rewrite F2 by congruence. apply Hh1, L. }
    split.
    { intros a L. rewrite Hh3; [apply Hold, L|]. rewrite Hold; assumption. }
    intros [|j] a b i Ea Eb I; cbn in Ea, Eb.
    + inversion Ea; subst a. inversion Eb; subst b.
      assert (Lb : h2 (alloc h) <> None) by (apply L2, L1).
      transitivity (kread h2 (alloc h, i)).
      { unfold kread. cbn [fst]. rewrite Hh3 by exact Lb. reflexivity. }
      rewrite R2 by lia. unfold kread. cbn [fst]. rewrite Hh1; [reflexivity|]. apply La. left. reflexivity.
    + rewrite (R3 j a b i Ea Eb I). unfold kread. cbn [fst]. rewrite Hold; [reflexivity|].
      apply La. right. eapply nth_error_In; eauto.
Qed.

Lemma holds_copied h k o xs h' k' new : holds h o xs -> k_sectors k = [] -> k_sectors k' = k_sectors k ++ new ->
  length new = length (k_sectors o) -> has h' k' ->
  (forall j a b i, nth_error (k_sectors o) j = Some a -> nth_error new j = Some b -> 0 <= i < 16 -> kread h' (b, i) = kread h (a, i)) ->
  holds h' (Stack (k_sectors k') (k_used o)) xs.
Proof.
  intros H Ek Es Ln Hh R. rewrite Ek in Es. cbn in Es.
  split; cbn [k_used k_sectors]; auto.
  - apply (hl_used _ _ _ H).
  - rewrite Es, Ln. apply (hl_room _ _ _ H).
  - intros i c E. destruct (hl_at _ _ _ H i c E) as (p & Ep & Rp). unfold at_loc in Ep |- *. cbn [k_sectors]. rewrite Es.
    destruct (nth_error (k_sectors o) (Z.to_nat (Z.of_nat i / sector_size))) as [a|] eqn:Ea; [|discriminate].
    cbn in Ep. inversion Ep; subst p.
    destruct (nth_error new (Z.to_nat (Z.of_nat i / sector_size))) as [b|] eqn:Eb.
    2: { apply nth_error_None in Eb. assert (Z.to_nat (Z.of_nat i / sector_size) < length (k_sectors o))%nat by (apply nth_error_Some; congruence). lia. }
    exists (b, Z.of_nat i mod sector_size). unfold at_loc. cbn [k_sectors]. rewrite Eb. split; [reflexivity|].
    assert (M : 0 <= Z.of_nat i mod sector_size < 16) by (apply Z.mod_pos_bound; reflexivity).
    rewrite (R _ a b _ Ea Eb M). exact Rp.
Qed.

Lemma has0 h : has h stack0.
Proof. split; [constructor|intros a []]. Qed.

Lemma copy_stack_ok h o xs : okk h o xs ->
  exists h' k', copy_stack alloc h o = Some (h', k') /\ okk h' k' xs /\ kframe h stack0 h' k'.
Proof.
  intros [H B]. unfold copy_stack.
  destruct (copy_sectors_ok (k_sectors o) h stack0 (has0 h) B) as (h1 & k1 & new & E1 & H1 & F1 & U1 & S1 & Ln & Hh & R1).
  - apply (hl_has _ _ _ H).
  - intros a _ [].
  - rewrite E1. eexists _, _. split; [reflexivity|]. split.
    + split; [|apply (kf_bnd _ _ _ _ F1 B)]. eapply (holds_copied h stack0 o); eauto.
    + eapply kframe_trans; [exact F1|]. apply kframe_refl. reflexivity.
Qed.

Lemma del_sectors_ok : forall l h, NoDup l -> (forall a, In a l -> h a <> None) ->
  exists h', del_sectors h l = Some h' /\ (forall a, In a l -> h' a = None) /\ (forall a, ~ In a l -> h' a = h a) /\
    (kbounded h -> kbounded h').
Proof.
  induction l as [|a l IH]; intros h N H; cbn [del_sectors].
  - exists h. repeat split; auto. intros a [].
  - inversion N as [|? ? Na Nl]; subst. destruct (h a) eqn:Ea; [|exfalso; apply (H a); [left; reflexivity|exact Ea]].
    destruct (IH (kset h a None) Nl) as (h' & E & D & F & B).
    { intros b I. rewrite kset_ne by congruence. apply H. right. exact I. }
    exists h'. split; [exact E|]. split; [|split].
    + intros b [<-|I]; [|apply D, I]. rewrite F by exact Na. apply kset_eq.
    + intros b Nb. rewrite F by (intros I; apply Nb; right; exact I). apply kset_ne. intros ->. apply Nb. left. reflexivity.
    + intros B0. apply B, kbounded_set, B0.
Qed.

Lemma clear_stack_ok h k xs : okk h k xs ->
  exists h', clear_stack h k = Some (h', Stack [] (k_used k)) /\ kframe h k h' (Stack [] (k_used k)) /\
    (forall a, ~ In a (k_sectors k) -> h' a = h a).
Proof.
  intros [H B]. destruct (hl_has _ _ _ H) as [N L]. unfold clear_stack.
  destruct (del_sectors_ok (k_sectors k) h N L) as (h' & E & D & F & B'). rewrite E. exists h'. split; [reflexivity|].
  split; [|exact F]. split; cbn [k_sectors]; auto.
  - intros a _ H1. destruct (in_dec Nat.eq_dec a (k_sectors k)) as [I|Na]; [rewrite D in H1 by exact I; congruence|].
    rewrite F in H1 by exact Na. auto.
  - intros a [].
Qed.

Lemma assign_stack_ok h k o xs ys : okk h k ys -> okk h o xs -> (forall a, In a (k_sectors k) -> ~ In a (k_sectors o)) ->
  exists h' k', assign_stack alloc h k o = Some (h', k') /\ okk h' k' xs /\ kframe h k h' k'.
Proof.
  intros Ok Oo D. unfold assign_stack. destruct (clear_stack_ok h k ys Ok) as (h1 & E1 & F1 & H1). rewrite E1.
  destruct Oo as [Ho B]. destruct (hl_has _ _ _ Ho) as [No Lo].
  assert (Same : forall a, In a (k_sectors o) -> h1 a = h a) by (intros a I; apply H1; intros I2; apply (D a I2 I)).
  destruct (copy_sectors_ok (k_sectors o) h1 (Stack [] (k_used k))) as (h2 & k2 & new & E2 & H2 & F2 & U2 & S2 & Ln & Hh & R2).
  - split; [constructor|intros a []].
  - apply (kf_bnd _ _ _ _ F1 B).
  - intros a I. rewrite Same by exact I. apply Lo, I.
  - intros a _ [].
  - rewrite E2. eexists _, _. split; [reflexivity|]. split.
    + split; [|apply (kf_bnd _ _ _ _ F2 (kf_bnd _ _ _ _ F1 B))].
      eapply (holds_copied h (Stack [] (k_used k)) o); eauto.
      intros j a b i Ea Eb I. rewrite (R2 j a b i Ea Eb I). unfold kread. cbn [fst]. rewrite Same; [reflexivity|].
      eapply nth_error_In; eauto.
    + eapply kframe_trans; [exact F1|]. eapply kframe_trans; [exact F2|]. apply kframe_refl. reflexivity.
Qed.

Lemma iterate_ok h k (vs : list T) : okk h k (map Some vs) -> forall zs us, vs = us ++ zs ->
  forall n, (length zs <= n)%nat -> iterate n h k (Z.of_nat (length us)) = Some zs.
Proof.
  intros [H B]. pose proof (hl_used _ _ _ H) as U. rewrite map_length in U.
  induction zs as [|v zs IH]; intros us E n L.
  - rewrite E, app_nil_r in U. destruct n; cbn [iterate]; rewrite U, Z.eqb_refl; reflexivity.
  - destruct n as [|n]; [cbn in L; lia|]. cbn [iterate].
    assert (Ll : length vs = (length us + S (length zs))%nat) by (rewrite E, app_length; reflexivity).
    destruct (Z.eqb_spec (Z.of_nat (length us)) (k_used k)); [lia|].
    assert (En : nth_error (map Some vs) (length us) = Some (Some v)).
    { rewrite E, map_app, nth_error_app2; rewrite map_length; [|lia]. rewrite Nat.sub_diag. reflexivity. }
    destruct (hl_at _ _ _ H _ _ En) as (p & -> & R). rewrite R.
    replace (Z.of_nat (length us) + 1) with (Z.of_nat (length (us ++ [v]))) by (rewrite app_length; cbn [length]; lia).
    rewrite (IH (us ++ [v])); [reflexivity| |cbn in L; lia]. rewrite <- app_assoc. exact E.
Qed.

(** The whole program. *)
Record krel (s : @ksys T) (sp : kseqs) : Prop := KRel {
  kr_some : forall l xs, sp l = Some xs -> exists k, k_stacks s l = Some k /\ holds (k_heap s) k xs;
  kr_none : forall l, sp l = None -> k_stacks s l = None;
  kr_disj : forall l m k w a, l <> m -> k_stacks s l = Some k -> k_stacks s m = Some w -> In a (k_sectors k) -> ~ In a (k_sectors w);
  kr_leak : forall a, k_heap s a <> None -> exists l k, k_stacks s l = Some k /\ In a (k_sectors k);
  kr_bound : kbounded (k_heap s) }.

Lemma krel_okk s sp l xs : krel s sp -> sp l = Some xs -> exists k, k_stacks s l = Some k /\ okk (k_heap s) k xs.
Proof.
  intros R E. destruct (kr_some _ _ R _ _ E) as (k & Ek & H). exists k. split; [exact Ek|]. split; [exact H|apply (kr_bound _ _ R)].
Qed.

Lemma holds_frame h k h' k' w ys : kframe h k h' k' -> holds h w ys -> (forall a, In a (k_sectors k) -> ~ In a (k_sectors w)) -> holds h' w ys.
Proof.
  intros F [[N L] U R At] D.
  assert (Same : forall a, In a (k_sectors w) -> h' a = h a).
  { intros a I. apply (kf_old _ _ _ _ F); [|apply L, I]. intros I2. apply (D a I2 I). }
  split; auto.
  - split; [exact N|]. intros a I. rewrite Same by exact I. apply L, I.
  - intros i c E. destruct (At i c E) as (p & Ep & Rp). exists p. split; [exact Ep|].
    unfold kread in *. rewrite Same; [exact Rp|]. eapply at_loc_in; eauto.
Qed.

Lemma krel_put s sp l k h' k' ys : krel s sp -> (k_stacks s l = Some k \/ k_sectors k = [] /\ k_stacks s l = None) ->
  okk h' k' ys -> kframe (k_heap s) k h' k' ->
  krel (KSys h' (mset (k_stacks s) l (Some k'))) (mset sp l (Some ys)).
Proof.
  intros R Ev (G' & B') F.
  assert (D : forall m w a, m <> l -> k_stacks s m = Some w -> In a (k_sectors k) -> ~ In a (k_sectors w)).
  { intros m w a N Ew I. destruct Ev as [Ev|[E0 Ev]]; [|rewrite E0 in I; destruct I].
    eapply (kr_disj _ _ R) with (l := l) (m := m); eauto. }
  assert (K : forall m w a, m <> l -> k_stacks s m = Some w -> In a (k_sectors k') -> ~ In a (k_sectors w)).
  { intros m w a N Ew I I2. destruct (kf_own _ _ _ _ F a I) as [E'|E']; [apply (D m w a N Ew E' I2)|].
    destruct (sp m) as [zs|] eqn:Em; [|rewrite (kr_none _ _ R _ Em) in Ew; discriminate].
    destruct (kr_some _ _ R _ _ Em) as (w' & Ew' & Gw). rewrite Ew in Ew'. inversion Ew'; subst w'.
    destruct (hl_has _ _ _ Gw) as [_ L]. apply (L a I2 E'). }
  split; cbn [k_heap k_stacks].
  - intros m xs E. destruct (Nat.eq_dec m l) as [->|N].
    + rewrite mset_eq in E. inversion E; subst. exists k'. rewrite mset_eq. auto.
    + rewrite mset_ne in E by exact N. destruct (kr_some _ _ R _ _ E) as (w & Ew & Gw). exists w. rewrite mset_ne by exact N.
      split; [exact Ew|]. eapply holds_frame; [exact F|exact Gw|]. intros a. apply (D m w a N Ew).
  - intros m E. destruct (Nat.eq_dec m l) as [->|N]; [rewrite mset_eq in E; discriminate|].
    rewrite mset_ne in E by exact N. rewrite mset_ne by exact N. apply (kr_none _ _ R _ E).
  - intros m1 m2 u w a N E1 E2 I. destruct (Nat.eq_dec m1 l) as [->|Na]; destruct (Nat.eq_dec m2 l) as [->|Nb]; try congruence.
    + rewrite mset_eq in E1. inversion E1; subst u. rewrite mset_ne in E2 by exact Nb. apply (K m2 w a Nb E2 I).
    + rewrite mset_eq in E2. inversion E2; subst w. rewrite mset_ne in E1 by exact Na.
      intros I2. apply (K m1 u a Na E1 I2 I).
    + rewrite mset_ne in E1, E2 by assumption. eapply (kr_disj _ _ R) with (l := m1) (m := m2); eauto.
  - intros a H. destruct (in_dec Nat.eq_dec a (k_sectors k')) as [I|N]; [exists l, k'; rewrite mset_eq; auto|].
    destruct (kf_new _ _ _ _ F a N H) as [H1 N1]. destruct (kr_leak _ _ R a H1) as (m & w & Ew & Ed).
    assert (m <> l) by (intros ->; destruct Ev as [Ev|[_ Ev]]; congruence).
    exists m, w. rewrite mset_ne by assumption. auto.
  - exact B'.
Qed.

Lemma krel_destroy s sp l k xs h' k' : krel s sp -> k_stacks s l = Some k -> sp l = Some xs ->
  k_sectors k' = [] -> kframe (k_heap s) k h' k' ->
  krel (KSys h' (mset (k_stacks s) l None)) (mset sp l None).
Proof.
  intros R Ev El E0 F.
  assert (D : forall m w a, m <> l -> k_stacks s m = Some w -> In a (k_sectors k) -> ~ In a (k_sectors w)).
  { intros m w a N Ew I. eapply (kr_disj _ _ R) with (l := l) (m := m); eauto. }
  split; cbn [k_heap k_stacks].
  - intros m ys E. destruct (Nat.eq_dec m l) as [->|N]; [rewrite mset_eq in E; discriminate|].
    rewrite mset_ne in E by exact N. destruct (kr_some _ _ R _ _ E) as (w & Ew & Gw). exists w. rewrite mset_ne by exact N.
    split; [exact Ew|]. eapply holds_frame; [exact F|exact Gw|]. intros a. apply (D m w a N Ew).
  - intros m E. destruct (Nat.eq_dec m l) as [->|N]; [apply mset_eq|].
    rewrite mset_ne in E by exact N. rewrite mset_ne by exact N. apply (kr_none _ _ R _ E).
  - intros m1 m2 u w a N E1 E2 I. destruct (Nat.eq_dec m1 l) as [->|Na]; [rewrite mset_eq in E1; discriminate|].
    destruct (Nat.eq_dec m2 l) as [->|Nb]; [rewrite mset_eq in E2; discriminate|].
    rewrite mset_ne in E1, E2 by assumption. eapply (kr_disj _ _ R) with (l := m1) (m := m2); eauto.
  - intros a H. destruct (kf_new _ _ _ _ F a) as [H1 N1]; [rewrite E0; intros []|exact H|].
    destruct (kr_leak _ _ R a H1) as (m & w & Ew & Ed).
    assert (m <> l) by (intros ->; congruence).
    exists m, w. rewrite mset_ne by assumption. auto.
  - apply (kf_bnd _ _ _ _ F (kr_bound _ _ R)).
Qed.

Lemma at_is_loc h k xs i v : holds h k xs -> nth_error xs i = Some (Some v) ->
  exists p, at_loc k (Z.of_nat i) = Some p /\ kread h p = Some (Some v).
Proof. intros H E. exact (hl_at _ _ _ H i (Some v) E). Qed.

Lemma karg_ok s sp a v : krel s sp -> karg_val sp a v -> exists e, karg_src s a = Some e /\ kdenotes (k_heap s) e v.
Proof.
  intros R A. inversion A as [w|m i xs w Em En]; subst; cbn [karg_src].
  - eexists. split; reflexivity.
  - destruct (kr_some _ _ R _ _ Em) as (k & -> & H). destruct (at_is_loc _ _ _ _ _ H En) as (p & -> & Rp).
    eexists. split; [reflexivity|]. unfold kdenotes, kget. rewrite Rp. reflexivity.
Qed.

Lemma kput_ok s sp l k p h' k' ys : krel s sp -> (k_stacks s l = Some k \/ k_sectors k = [] /\ k_stacks s l = None) ->
  p = Some (h', k') -> okk h' k' ys -> kframe (k_heap s) k h' k' ->
  exists s', kput s l p = Some (s', KUnit) /\ krel s' (mset sp l (Some ys)).
Proof. intros R Ev -> O F. eexists. split; [reflexivity|]. eapply krel_put; eauto. Qed.

Theorem kstep_refines s sp o sp' r : krel s sp -> jstep sp o sp' r ->
  exists s', kstep alloc s o = Some (s', r) /\ krel s' sp'.
Proof.
  intros R Q. destruct Q; cbn [kstep].
  - pose proof (kr_none _ _ R _ H) as E. rewrite E.
    eapply kput_ok with (k := stack0); [exact R|right; split; [reflexivity|exact E]|reflexivity| |apply kframe_refl; reflexivity].
    split; [|apply (kr_bound _ _ R)]. split; cbn; [apply has0|reflexivity|lia|]. intros [|i] c Ei; discriminate.
  - pose proof (kr_none _ _ R _ H) as E. rewrite E. destruct (krel_okk _ _ _ _ R H0) as (w & Ew & Ow). rewrite Ew.
    destruct (copy_stack_ok _ _ _ Ow) as (h' & k' & E' & O' & F').
    eapply kput_ok with (k := stack0); eauto.
  - destruct (krel_okk _ _ _ _ R H0) as (k & Ek & Ok). destruct (krel_okk _ _ _ _ R H1) as (w & Ew & Ow).
    rewrite Ek, Ew. destruct (Nat.eqb_spec l m); [contradiction|].
    destruct (assign_stack_ok _ k w xs ys Ok Ow) as (h' & k' & E' & O' & F').
    { intros a. eapply (kr_disj _ _ R) with (l := l) (m := m); eauto. }
    eapply kput_ok; eauto.
  - destruct (krel_okk _ _ _ _ R H) as (k & Ek & Ok). rewrite Ek.
    destruct (clear_stack_ok _ _ _ Ok) as (h' & E' & F' & _). rewrite E'. cbn. eexists. split; [reflexivity|].
    eapply (krel_destroy s sp l k xs h' (Stack [] (k_used k))); eauto.
  - destruct (krel_okk _ _ _ _ R H) as (k & Ek & Ok). rewrite Ek.
    destruct (karg_ok _ _ _ _ R H0) as (e & -> & De).
    destruct (push_stack_ok _ _ _ _ _ Ok De) as (h' & k' & E' & O' & F' & _). eapply kput_ok; eauto.
  - destruct (krel_okk _ _ _ _ R H) as (k & Ek & Ok). rewrite Ek.
    destruct (make_next_ok _ _ _ Ok) as (h' & k' & p & E' & O' & F' & _). rewrite E'. eapply kput_ok; eauto.
  - destruct (krel_okk _ _ _ _ R H) as (k & Ek & Ok). rewrite Ek.
    eapply kput_ok; eauto; [|apply kframe_refl; reflexivity].
    pose proof (shorten_ok _ _ _ _ Ok) as O'. destruct Ok as [Ho _]. pose proof (hl_used _ _ _ Ho) as U.
    unfold pop_stack. rewrite U, app_length. cbn [length]. unfold wrap. rewrite Z.mod_small; [|unfold fits in H0; lia].
    replace (Z.of_nat (length xs + 1) - 1) with (Z.of_nat (length xs)) by lia. exact O'.
  - destruct (krel_okk _ _ _ _ R H) as (k & Ek & Ok). rewrite Ek.
    eapply kput_ok; eauto; [|apply kframe_refl; reflexivity].
    exact (shorten_ok _ _ [] _ Ok).
  - destruct (kr_some _ _ R _ _ H) as (k & Ek & Hk). rewrite Ek.
    destruct (at_is_loc _ _ _ _ _ Hk H0) as (p & -> & Rp). unfold kvalue. rewrite Rp. eexists. split; [reflexivity|exact R].
  - destruct (krel_okk _ _ _ _ R H) as (k & Ek & Ok). rewrite Ek.
    destruct (set_stack_ok _ _ _ _ _ v Ok) as (p & h' & -> & E' & O' & F'). rewrite E'. eexists. split; [reflexivity|].
    pose proof (krel_put s sp l k h' k _ R (or_introl Ek) O' F') as [A B C D G].
    split; cbn [k_heap k_stacks] in *; auto.
    + intros m ys' E. destruct (A m ys' E) as (z & Ez & Gz). exists z. split; [|exact Gz].
      destruct (Nat.eq_dec m l) as [->|N]; [rewrite mset_eq in Ez; congruence|]. rewrite mset_ne in Ez by exact N. exact Ez.
    + intros m E. destruct (Nat.eq_dec m l) as [->|N]; [rewrite mset_eq in E; discriminate|].
      rewrite mset_ne in E by exact N. apply (kr_none _ _ R _ E).
    + intros a b u1 u2 x. apply (kr_disj _ _ R).
    + intros b Hb. destruct (D b Hb) as (m & z & Ez & Hz). exists m, z. split; [|exact Hz].
      destruct (Nat.eq_dec m l) as [->|N]; [rewrite mset_eq in Ez; congruence|]. rewrite mset_ne in Ez by exact N. exact Ez.
  - destruct (kr_some _ _ R _ _ H) as (k & Ek & Hk). rewrite Ek.
    assert (En : nth_error (xs ++ [Some v]) (length xs) = Some (Some v)) by (rewrite nth_error_app2, Nat.sub_diag by lia; reflexivity).
    destruct (at_is_loc _ _ _ _ _ Hk En) as (p & Ep & Rp). pose proof (hl_used _ _ _ Hk) as U. rewrite app_length in U. cbn [length] in U.
    unfold wrap. unfold fits in H0. rewrite Z.mod_small by lia. replace (k_used k - 1) with (Z.of_nat (length xs)) by lia.
    rewrite Ep. unfold kvalue. rewrite Rp. eexists. split; [reflexivity|exact R].
  - destruct (kr_some _ _ R _ _ H) as (k & Ek & Hk). rewrite Ek.
    assert (En : nth_error (xs ++ [Some v; c]) (length xs) = Some (Some v)) by (rewrite nth_error_app2, Nat.sub_diag by lia; reflexivity).
    destruct (at_is_loc _ _ _ _ _ Hk En) as (p & Ep & Rp). pose proof (hl_used _ _ _ Hk) as U. rewrite app_length in U. cbn [length] in U.
    unfold wrap. unfold fits in H0. rewrite Z.mod_small by lia. replace (k_used k - 2) with (Z.of_nat (length xs)) by lia.
    rewrite Ep. unfold kvalue. rewrite Rp. eexists. split; [reflexivity|exact R].
  - destruct (krel_okk _ _ _ _ R H) as (k & Ek & Ok). rewrite Ek.
    pose proof Ok as [Ho _]. pose proof (hl_used _ _ _ Ho) as U. rewrite map_length in U.
    pose proof (iterate_ok _ _ _ Ok xs [] eq_refl (S (Z.to_nat (k_used k)))) as E. cbn [length Z.of_nat] in E. rewrite E by lia.
    eexists. split; [reflexivity|exact R].
  - destruct (kr_some _ _ R _ _ H) as (k & Ek & Hk). rewrite Ek. rewrite (hl_used _ _ _ Hk).
    eexists. split; [reflexivity|exact R].
  - destruct (kr_some _ _ R _ _ H) as (k & Ek & Hk). rewrite Ek. rewrite (hl_used _ _ _ Hk).
    eexists. split; [|exact R]. destruct xs; reflexivity.
Qed.

Theorem krun_refines : forall ops s sp sp' rs, krel s sp -> jrun sp ops sp' rs ->
  exists s', krun alloc s ops = Some (s', rs) /\ krel s' sp'.
Proof.
  induction ops as [|o ops IH]; intros s sp sp' rs R Q; inversion Q as [|? ? sp1 ? ? ? ? Q1 Q2]; subst; cbn [krun].
  - eexists. split; [reflexivity|exact R].
  - destruct (kstep_refines _ _ _ _ _ R Q1) as (s1 & -> & R1).
    destruct (IH s1 _ _ _ R1 Q2) as (s2 & -> & R2). eexists. split; [reflexivity|exact R2].
Qed.

Lemma krel0 : krel ksys0 no_stacks.
Proof.
  split; cbn; try discriminate; try congruence; auto. intros b _. reflexivity.
Qed.

(** Addresses do not change. *)
Definition leaves (l : nat) (o : @kop T) : Prop :=
  match o with KAssign m _ => m <> l | KDestroy m => m <> l | _ => True end.

Lemma kstep_sectors s sp o sp' r s' l k : krel s sp -> jstep sp o sp' r -> kstep alloc s o = Some (s', r) ->
  leaves l o -> k_stacks s l = Some k ->
  exists k' secs, k_stacks s' l = Some k' /\ k_sectors k' = k_sectors k ++ secs.
Proof.
  intros R J E L Ek.
  assert (Same : forall s1 : @ksys T, k_stacks s1 l = k_stacks s l -> exists k' secs, k_stacks s1 l = Some k' /\ k_sectors k' = k_sectors k ++ secs).
  { intros s1 E1. exists k, []. rewrite E1. split; [exact Ek|]. symmetry. apply app_nil_r. }
  assert (Put : forall m h1 (w w1 : stack) s1 r1, kput s m (Some (h1, w1)) = Some (s1, r1) -> k_stacks s m = Some w ->
     (exists secs, k_sectors w1 = k_sectors w ++ secs) -> exists k' secs, k_stacks s1 l = Some k' /\ k_sectors k' = k_sectors k ++ secs).
  { intros m h1 w w1 s1 r1 Ep Em (secs & Es). cbn in Ep. inversion Ep; subst s1 r1. cbn [k_stacks].
    destruct (Nat.eq_dec l m) as [->|N].
    - rewrite mset_eq. exists w1, secs. split; [reflexivity|]. congruence.
    - apply (Same (KSys h1 (mset (k_stacks s) m (Some w1)))). cbn. apply mset_ne, N. }
  assert (Other : forall m p s1 r1, kput s m p = Some (s1, r1) -> m <> l -> exists k' secs, k_stacks s1 l = Some k' /\ k_sectors k' = k_sectors k ++ secs).
  { intros m [[h1 w1]|] s1 r1 Ep N; [|discriminate]. cbn in Ep. inversion Ep; subst s1 r1. apply Same. cbn. apply mset_ne. congruence. }
  destruct J; cbn [kstep leaves] in *.
  - rewrite (kr_none _ _ R _ H) in E. eapply Other; [exact E|]. intros ->. rewrite (kr_none _ _ R _ H) in Ek. discriminate.
  - rewrite (kr_none _ _ R _ H) in E. destruct (k_stacks s m); [|discriminate]. cbn in E.
    eapply Other; [exact E|]. intros ->. rewrite (kr_none _ _ R _ H) in Ek. discriminate.
  - destruct (k_stacks s l0); [|discriminate]. destruct (k_stacks s m); [|discriminate]. cbn in E.
    destruct (l0 =? m)%nat; eapply Other; eauto.
  - destruct (k_stacks s l0) as [w|]; [|discriminate]. cbn in E. destruct (clear_stack (k_heap s) w) as [[h1 w1]|]; [|discriminate].
    inversion E; subst s'. apply Same. cbn. apply mset_ne. congruence.
  - destruct (krel_okk _ _ _ _ R H) as (w & Ew & Ow). rewrite Ew in E.
    destruct (karg_ok _ _ _ _ R H0) as (e & Ee & De). rewrite Ee in E.
    destruct (push_stack_ok _ _ _ _ _ Ow De) as (h' & k' & E' & O' & F' & S'). rewrite E' in E. eapply Put; eauto.
  - destruct (krel_okk _ _ _ _ R H) as (w & Ew & Ow). rewrite Ew in E.
    destruct (make_next_ok _ _ _ Ow) as (h' & k' & p & E' & O' & F' & _ & S'). rewrite E' in E. eapply Put; eauto.
  - destruct (krel_okk _ _ _ _ R H) as (w & Ew & Ow). rewrite Ew in E. eapply Put; [exact E|exact Ew|].
    exists []. symmetry. apply app_nil_r.
  - destruct (krel_okk _ _ _ _ R H) as (w & Ew & Ow). rewrite Ew in E. eapply Put; [exact E|exact Ew|].
    exists []. symmetry. apply app_nil_r.
  - destruct (k_stacks s l0); [|discriminate]. unfold kvalue in E. destruct (at_loc s0 (Z.of_nat i)); [|discriminate].
    destruct (kread (k_heap s) l1) as [[u|]|]; try discriminate. inversion E; subst. apply Same. reflexivity.
  - destruct (k_stacks s l0); [|discriminate]. destruct (at_loc s0 (Z.of_nat (length xs))); [|discriminate].
    destruct (kwrite (k_heap s) l1 (Some v)); [|discriminate]. inversion E; subst. apply Same. reflexivity.
  - destruct (k_stacks s l0); [|discriminate]. unfold kvalue in E. destruct (at_loc s0 (wrap (k_used s0 - 1))); [|discriminate].
    destruct (kread (k_heap s) l1) as [[u|]|]; try discriminate. inversion E; subst. apply Same. reflexivity.
  - destruct (k_stacks s l0); [|discriminate]. unfold kvalue in E. destruct (at_loc s0 (wrap (k_used s0 - 2))); [|discriminate].
    destruct (kread (k_heap s) l1) as [[u|]|]; try discriminate. inversion E; subst. apply Same. reflexivity.
  - destruct (k_stacks s l0) as [w|]; [|discriminate]. destruct (iterate (S (Z.to_nat (k_used w))) (k_heap s) w 0); [|discriminate].
    inversion E; subst. apply Same. reflexivity.
  - destruct (k_stacks s l0); [|discriminate]. inversion E; subst. apply Same. reflexivity.
  - destruct (k_stacks s l0); [|discriminate]. inversion E; subst. apply Same. reflexivity.
Qed.
End Stack.
