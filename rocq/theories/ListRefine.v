(** SourceHook::List refines sequences. *)
From Coq Require Import List ZArith Bool Arith Lia.
From Verif Require Import Seq ListModel ListSpec ListProofs.
Import ListNotations.
Local Open Scope nat_scope.

Section ListRefine.
Context {T : Type}.
Variable eqb : T -> T -> bool.
Variable ltb : T -> T -> bool.
Notation heap := (@heap T).
Notation slist := (@slist T).
Notation sstate := (@sstate T).
Notation keys := (map (@fst nat T)).

(** ** One list *)
Lemma lrep_mid (h : heap) e u w x z : lrep h (SL e (u ++ (w, x) :: z)) ->
  get_obj h w = Some x /\ get_prev h w = Some (last (keys u) e) /\
  get_next h w = Some (match z with [] => e | (q, _) :: _ => q end).
Proof.
  intros (S & D & O). cbn [sl_end sl_elems] in *. apply seg_app in S. destruct S as (S1 & S2 & S3).
  destruct (seg_last _ _ _ _ S1) as [E1 E2]. repeat split; auto.
  destruct z as [|[q y] z]; cbn [seg] in S3; tauto.
Qed.

Lemma lrep_end (h : heap) e xs : lrep h (SL e xs) ->
  get_prev h e = Some (last (keys xs) e) /\ get_next h e = Some (match xs with [] => e | (q, _) :: _ => q end).
Proof.
  intros (S & D & O). cbn [sl_end sl_elems] in *.
  destruct (seg_last _ _ _ _ S) as [E1 E2]. split; auto.
  destruct xs as [|[q y] z]; cbn [seg] in S; tauto.
Qed.

Lemma erase_step (h : heap) l e u w x z : lrep h (SL e (u ++ (w, x) :: z)) ->
  exists h', erase h l w = Some (h', LObj (l_head l) (l_size l - 1), match z with [] => e | (q, _) :: _ => q end) /\
    lrep h' (SL e (u ++ z)) /\ get_next h' w = None /\
    (forall y, ~ In y (poss (SL e (u ++ (w, x) :: z))) -> same h h' y).
Proof.
  intros R. destruct (lrep_mid _ _ _ _ _ _ R) as (O & P & N).
  set (q := match z with [] => e | (q, _) :: _ => q end) in *.
  assert (Hp : In (last (keys u) e) (poss (SL e (u ++ (w, x) :: z)))).
  { unfold poss. cbn [sl_end sl_elems]. rewrite map_app.
    destruct (last_in (keys u) e) as [E|I]; [left; exact E|right; apply in_or_app; auto]. }
  assert (Hq : In q (poss (SL e (u ++ (w, x) :: z)))).
  { unfold poss, q. cbn [sl_end sl_elems]. rewrite map_app.
    destruct z as [|[q' y] z]; [left; reflexivity|]. right. apply in_or_app. cbn. auto. }
  pose proof R as (_ & D & _). unfold poss in D. cbn [sl_end sl_elems] in D.
  rewrite map_app, app_comm_cons in D. cbn [map fst] in D. apply NoDup_remove_2 in D.
  assert (Pw : last (keys u) e <> w).
  { intros E. apply D. rewrite <- E. apply in_or_app. left. apply last_in. }
  assert (Qw : q <> w).
  { intros E. apply D. rewrite <- E. unfold q. destruct z as [|[q' y] z]; apply in_or_app; cbn; auto. }
  destruct (erase_ok h l w x (last (keys u) e) q) as (h' & E & V); auto;
    [eapply lrep_live; eauto..|].
  exists h'. split; [exact E|]. split; [eapply lrep_erase; eauto|]. destruct V as [V1 V2 V3]. split.
  - rewrite V1, Nat.eqb_refl. reflexivity.
  - intros y Hy. assert (y <> w).
    { intros ->. apply Hy. unfold poss. cbn [sl_end sl_elems]. right. rewrite map_app. apply in_or_app. cbn; auto. }
    assert (y <> last (keys u) e) by congruence. assert (y <> q) by congruence.
    unfold same. rewrite V1, V2, V3. destruct (Nat.eqb_spec y w); [contradiction|].
    destruct (Nat.eqb_spec y q); [contradiction|]. destruct (Nat.eqb_spec y (last (keys u) e)); [contradiction|]. auto.
Qed.

Definition ins_frame (h h' : heap) (s : slist) a : Prop :=
  forall y, ~ In y (poss s) -> y <> a -> same h h' y.

Lemma ins_frame_of (h h' : heap) s w v a p : In w (poss s) -> In p (poss s) ->
  ins_views h h' w p v a -> ins_frame h h' s a.
Proof.
  intros W P [V1 V2 V3] y Hy Ya. assert (y <> w) by congruence. assert (y <> p) by congruence.
  unfold same. rewrite V1, V2, V3.
  destruct (Nat.eqb_spec y a); [contradiction|].
  destruct (Nat.eqb_spec y w); [contradiction|]. destruct (Nat.eqb_spec y p); [contradiction|]. auto.
Qed.

Lemma insert_step_mid (h : heap) l e u w x z v a : lrep h (SL e (u ++ (w, x) :: z)) ->
  a <> 0 -> get_next h a = None ->
  exists h', insert h l w v a = Some (h', LObj (l_head l) (l_size l + 1), a) /\
    lrep h' (SL e (u ++ (a, v) :: (w, x) :: z)) /\ ins_frame h h' (SL e (u ++ (w, x) :: z)) a.
Proof.
  intros R A F. destruct (lrep_mid _ _ _ _ _ _ R) as (O & P & N).
  assert (Hp : In (last (keys u) e) (poss (SL e (u ++ (w, x) :: z)))).
  { unfold poss. cbn [sl_end sl_elems]. rewrite map_app.
    destruct (last_in (keys u) e) as [E|I]; [left; exact E|right; apply in_or_app; auto]. }
  assert (Hw : In w (poss (SL e (u ++ (w, x) :: z)))).
  { unfold poss. cbn [sl_end sl_elems]. rewrite map_app. right. apply in_or_app. cbn. auto. }
  destruct (insert_ok h l w v a (last (keys u) e)) as (h' & E & V); auto; [exact (lrep_live _ _ _ R Hp)|].
  exists h'. split; [exact E|]. split.
  - eapply lrep_insert_mid; eauto. intros I. exact (lrep_live _ _ _ R I F).
  - exact (ins_frame_of _ _ _ _ _ _ _ Hw Hp V).
Qed.

Lemma poss_end_last e (xs : list (nat * T)) : In e (poss (SL e xs)) /\ In (last (keys xs) e) (poss (SL e xs)).
Proof. split; [left; reflexivity|]. unfold poss. cbn [sl_end sl_elems]. apply last_in. Qed.

Lemma insert_step_end (h : heap) l e xs v a : lrep h (SL e xs) -> a <> 0 -> get_next h a = None ->
  exists h', insert h l e v a = Some (h', LObj (l_head l) (l_size l + 1), a) /\
    lrep h' (SL e (xs ++ [(a, v)])) /\ ins_frame h h' (SL e xs) a.
Proof.
  intros R A F. destruct (lrep_end _ _ _ R) as (P & N). destruct (poss_end_last e xs) as [Hw Hp].
  destruct (insert_ok h l e v a (last (keys xs) e)) as (h' & E & V); auto; [exact (lrep_live _ _ _ R Hp)|].
  exists h'. split; [exact E|]. split.
  - eapply lrep_insert_end; eauto. intros I. exact (lrep_live _ _ _ R I F).
  - exact (ins_frame_of _ _ _ _ _ _ _ Hw Hp V).
Qed.

Lemma push_back_step (h : heap) l e xs v a : l_head l = e -> lrep h (SL e xs) -> a <> 0 -> get_next h a = None ->
  exists h', push_back h l v a = Some (h', LObj e (l_size l + 1)) /\
    lrep h' (SL e (xs ++ [(a, v)])) /\ ins_frame h h' (SL e xs) a.
Proof.
  intros <- R A F. destruct (lrep_end _ _ _ R) as (P & N). destruct (poss_end_last (l_head l) xs) as [Hw Hp].
  destruct (push_back_ok h l v a (last (keys xs) (l_head l))) as (h' & E & V); auto; [exact (lrep_live _ _ _ R Hp)|].
  exists h'. split; [exact E|]. split.
  - eapply lrep_insert_end; eauto. intros I. exact (lrep_live _ _ _ R I F).
  - exact (ins_frame_of _ _ _ _ _ _ _ Hw Hp V).
Qed.

Lemma push_front_step (h : heap) l e xs v a : l_head l = e -> lrep h (SL e xs) -> a <> 0 -> get_next h a = None ->
  exists h', push_front h l v a = Some (h', LObj e (l_size l + 1)) /\
    lrep h' (SL e ((a, v) :: xs)) /\ ins_frame h h' (SL e xs) a.
Proof.
  intros <- R A F. destruct (lrep_end _ _ _ R) as (P & N). unfold push_front. rewrite N.
  destruct xs as [|[q y] xs].
  - destruct (insert_step_end h l _ _ v a R A F) as (h' & E & R' & F'). rewrite E. eauto.
  - destruct (insert_step_mid h l _ [] q y xs v a R A F) as (h' & E & R' & F'). rewrite E. eauto.
Qed.

(** ** Loops *)
Lemma fchain_app (h : heap) e rest : forall u p, fchain h p (u ++ rest) e -> exists p', fchain h p' rest e.
Proof.
  induction u as [|[a v] u IH]; intros p C; cbn [app fchain] in *; [eauto|].
  destruct C as (_ & _ & q & _ & C). eauto.
Qed.

Lemma find_skip (h : heap) e v rest n : forall u p, fchain h p (u ++ rest) e -> ~ In e (keys u) ->
  (forall y, In y u -> eqb (snd y) v = false) ->
  exists p', fchain h p' rest e /\ find_loop eqb (length u + n) h e p v = find_loop eqb n h e p' v.
Proof.
  induction u as [|[a x] u IH]; intros p C E F; cbn [app fchain length plus find_loop map fst In] in *; [eauto|].
  destruct C as (-> & C1 & q & C2 & C3).
  destruct (Nat.eqb_spec a e); [tauto|]. rewrite C1, C2.
  pose proof (F (a, x) (or_introl eq_refl)) as F1. cbn [snd] in F1. rewrite F1.
  apply IH; auto.
Qed.

Lemma remove_skip (h : heap) l v rest n : forall u p, fchain h p (u ++ rest) (l_head l) -> ~ In (l_head l) (keys u) ->
  (forall y, In y u -> eqb (snd y) v = false) ->
  exists p', fchain h p' rest (l_head l) /\ remove_loop eqb (length u + n) h l p v = remove_loop eqb n h l p' v.
Proof.
  induction u as [|[a x] u IH]; intros p C E F; cbn [app fchain length plus remove_loop map fst In] in *; [eauto|].
  destruct C as (-> & C1 & q & C2 & C3).
  destruct (Nat.eqb_spec a (l_head l)); [tauto|]. rewrite C1, C2.
  pose proof (F (a, x) (or_introl eq_refl)) as F1. cbn [snd] in F1. rewrite F1.
  apply IH; auto.
Qed.

Lemma sorted_skip (h : heap) l v b rest n : forall u p, fchain h p (u ++ rest) (l_head l) -> ~ In (l_head l) (keys u) ->
  (forall y, In y u -> ltb v (snd y) = false) ->
  exists p', fchain h p' rest (l_head l) /\
    push_sorted_loop ltb (length u + n) h l p v b = push_sorted_loop ltb n h l p' v b.
Proof.
  induction u as [|[a x] u IH]; intros p C E F; cbn [app fchain length plus push_sorted_loop map fst In] in *; [eauto|].
  destruct C as (-> & C1 & q & C2 & C3).
  destruct (Nat.eqb_spec a (l_head l)); [tauto|]. rewrite C1, C2.
  pose proof (F (a, x) (or_introl eq_refl)) as F1. cbn [snd] in F1. rewrite F1.
  apply IH; auto.
Qed.

Lemma clear_loop_ok e : forall xs n (h : heap) p, fchain h p xs e -> NoDup (e :: keys xs) -> length xs < n ->
  exists h', clear_loop n h e p = Some h' /\
    (forall y, In y (keys xs) -> get_next h' y = None) /\
    (forall y, ~ In y (keys xs) -> same h h' y).
Proof.
  induction xs as [|[a v] xs IH]; intros n h p C D L; cbn [fchain length map fst] in *;
    (destruct n as [|n]; [lia|]); cbn [clear_loop].
  - subst p. rewrite Nat.eqb_refl. eexists; split; [reflexivity|]. split; [intros y []|]. intros y _. unfold same; auto.
  - destruct C as (-> & C1 & q & C2 & C3). inversion D as [|? ? De Dk]; subst. inversion Dk as [|? ? Da Dk']; subst.
    destruct (Nat.eqb_spec a e) as [->|Ae]; [exfalso; apply De; cbn; auto|]. rewrite C2.
    destruct (delete_ok _ _ _ C1) as (h1 & E1 & [V1 V2 V3]). rewrite E1.
    destruct (IH n h1 q) as (h' & E & G1 & G2).
    + clear - C3 V1 V3 Da Ae. revert q C3. induction xs as [|[b w] xs IH]; intros q C; cbn [fchain map fst In] in *; [exact C|].
      destruct C as (-> & C1 & r & C2 & C3). rewrite V1, V3. destruct (Nat.eqb_spec b a); [tauto|].
      repeat split; auto. exists r. split; [exact C2|]. apply IH; auto.
    + constructor; [|exact Dk']. intros I. apply De. right. exact I.
    + lia.
    + exists h'. split; [exact E|]. split.
      * intros y [->|I]; [|auto]. destruct (G2 y Da) as (G & _). rewrite G, V1, Nat.eqb_refl. reflexivity.
      * intros y I. destruct (G2 y) as (A1 & A2 & A3); [intros I'; apply I; right; exact I'|]. unfold same. rewrite A1, A2, A3, V1, V2, V3.
        destruct (Nat.eqb_spec y a) as [->|]; [exfalso; apply I; left; reflexivity|auto].
Qed.

Lemma clear_step (h : heap) l e xs : l_head l = e -> l_size l = Z.of_nat (length xs) -> lrep h (SL e xs) ->
  exists h', clear h l = Some (h', LObj e 0) /\ lrep h' (SL e []) /\
    (forall y, In y (keys xs) -> get_next h' y = None) /\
    (forall y, ~ In y (poss (SL e xs)) -> same h h' y).
Proof.
  intros E Z R. pose proof R as (S & D & O). cbn [sl_end sl_elems] in *. unfold poss in D. cbn [sl_end sl_elems] in D.
  destruct (seg_fchain _ _ _ _ S) as (b & B & C). unfold clear. rewrite E, B.
  destruct (set_next_ok h e e) as (h1 & E1 & [V1 V2 V3]); [rewrite B; discriminate|]. rewrite E1.
  destruct (set_prev_ok h1 e e) as (h2 & E2 & [W1 W2 W3]); [rewrite V1, Nat.eqb_refl; discriminate|]. rewrite E2.
  inversion D as [|? ? De Dk]; subst.
  destruct (clear_loop_ok (l_head l) xs (fuel l) h2 b) as (h' & E3 & G1 & G2).
  - clear - C De V1 V3 W1 W3. revert b C. induction xs as [|[c w] xs IH]; intros b C; cbn [fchain map fst In] in *; [exact C|].
    destruct C as (-> & C1 & r & C2 & C3). rewrite W1, V1, W3, V3.
    destruct (Nat.eqb_spec c (l_head l)); [tauto|]. repeat split; auto. exists r. split; auto.
  - exact D.
  - unfold fuel. rewrite Z, Nat2Z.id. lia.
  - rewrite E3. exists h'. split; [reflexivity|]. destruct (G2 _ De) as (A1 & A2 & A3). repeat split.
    + cbn. rewrite A1, W1, V1, Nat.eqb_refl. reflexivity.
    + cbn. rewrite A2, W2, Nat.eqb_refl. reflexivity.
    + constructor; [intros []|constructor].
    + cbn. rewrite A3, W3, V3. exact O.
    + exact G1.
    + destruct (G2 y) as (Q1 & _); [intros I; apply H; right; exact I|]. rewrite Q1, W1, V1.
      destruct (Nat.eqb_spec y (l_head l)) as [->|]; [|reflexivity]. exfalso. apply H. left. reflexivity.
    + destruct (G2 y) as (_ & Q1 & _); [intros I; apply H; right; exact I|]. rewrite Q1, W2, V2.
      destruct (Nat.eqb_spec y (l_head l)) as [->|]; [|reflexivity]. exfalso. apply H. left. reflexivity.
    + destruct (G2 y) as (_ & _ & Q1); [intros I; apply H; right; exact I|]. rewrite Q1, W3, V3. reflexivity.
Qed.

Lemma walk_next_ok (h : heap) e : forall xs p n, fchain h p xs e -> ~ In e (keys xs) -> length xs < n ->
  walk get_next n h p e = Some (map snd xs).
Proof.
  induction xs as [|[a v] xs IH]; intros p n C E L; cbn [fchain length map fst snd In] in *;
    (destruct n as [|n]; [lia|]); cbn [walk].
  - subst. rewrite Nat.eqb_refl. reflexivity.
  - destruct C as (-> & C1 & q & C2 & C3). destruct (Nat.eqb_spec a e); [tauto|].
    rewrite C1, C2, (IH q n); auto. lia.
Qed.

Lemma walk_prev_ok (h : heap) e : forall xs p n, seg h e xs p -> ~ In e (keys xs) -> length xs < n ->
  walk get_prev n h (last (keys xs) e) e = Some (rev (map snd xs)).
Proof.
  intros xs. induction xs as [|[a v] xs IH] using rev_ind; intros p n C E L.
  - destruct n as [|n]; [cbn in L; lia|]. cbn. rewrite Nat.eqb_refl. reflexivity.
  - rewrite map_app, !app_length in *. cbn [map fst length] in *. rewrite last_last.
    destruct n as [|n]; [lia|]. cbn [walk]. apply seg_app in C. destruct C as (C1 & C2 & C3).
    rewrite in_app_iff in E. destruct (Nat.eqb_spec a e) as [->|]; [exfalso; apply E; cbn; auto|].
    destruct (seg_last _ _ _ _ C1) as [P _]. rewrite C2, P.
    rewrite (IH a n); auto; [|lia]. rewrite map_app, rev_app_distr. reflexivity.
Qed.

(** ** The relation *)
Record rel (s : sys) (sp : sstate) : Prop := Rel {
  rl_some : forall l x, sp l = Some x ->
     s_lists s l = Some (LObj (sl_end x) (Z.of_nat (length (sl_elems x)))) /\ lrep (s_heap s) x;
  rl_none : forall l, sp l = None -> s_lists s l = None;
  rl_disj : forall l1 l2 x1 x2 a, sp l1 = Some x1 -> sp l2 = Some x2 ->
     In a (poss x1) -> In a (poss x2) -> l1 = l2;
  rl_leak : forall a, get_next (s_heap s) a <> None -> exists l x, sp l = Some x /\ In a (poss x);
  rl_null : get_next (s_heap s) 0 = None }.

Lemma rel_ext s sp sp' : (forall l, sp' l = sp l) -> rel s sp -> rel s sp'.
Proof.
  intros E [A B C D F]. split; auto.
  - intros l x. rewrite E. apply A.
  - intros l. rewrite E. apply B.
  - intros l1 l2 x1 x2 a. rewrite !E. apply C.
  - intros a L. destruct (D a L) as (l & x & G). exists l, x. rewrite E. exact G.
Qed.

Lemma fresh_dead s sp a : rel s sp -> fresh sp a -> a <> 0 /\ get_next (s_heap s) a = None.
Proof.
  intros R [A F]. split; [exact A|]. destruct (get_next (s_heap s) a) eqn:E; [|reflexivity].
  destruct (rl_leak _ _ R a) as (l & x & L & I); [congruence|]. exfalso. eapply F; eauto.
Qed.

Lemma rel_upd s sp l o h' x' : rel s sp ->
  lrep h' x' -> o = LObj (sl_end x') (Z.of_nat (length (sl_elems x'))) ->
  (forall a, In a (poss x') -> (exists x, sp l = Some x /\ In a (poss x)) \/ fresh sp a) ->
  (forall a, ~ In a (poss x') -> ~ (exists x, sp l = Some x /\ In a (poss x)) -> same (s_heap s) h' a) ->
  (forall x a, sp l = Some x -> In a (poss x) -> ~ In a (poss x') -> get_next h' a = None) ->
  rel (Sys h' (mset (s_lists s) l (Some o))) (mset sp l (Some x')).
Proof.
  intros R L -> N F G.
  assert (NO : forall l2 x2 a, l2 <> l -> sp l2 = Some x2 -> In a (poss x2) ->
     ~ In a (poss x') /\ ~ (exists x, sp l = Some x /\ In a (poss x))).
  { intros l2 x2 a Nl E I.
    assert (Q : ~ (exists x, sp l = Some x /\ In a (poss x))).
    { intros (x & Ex & Ix). apply Nl. eapply (rl_disj _ _ R); eauto. }
    split; [|exact Q]. intros I'. destruct (N a I') as [Q'|[_ Q']]; [auto|]. eapply Q'; eauto. }
  split; cbn [s_heap s_lists].
  - intros l2 x2. unfold mset. destruct (Nat.eqb_spec l2 l) as [->|Nl].
    + intros E. inversion E; subst. auto.
    + intros E. destruct (rl_some _ _ R _ _ E) as [E1 E2]. split; [exact E1|].
      eapply lrep_frame; [exact E2|]. intros a I. destruct (NO _ _ _ Nl E I). auto.
  - intros l2. unfold mset. destruct (Nat.eqb_spec l2 l); [discriminate|]. apply (rl_none _ _ R).
  - intros l1 l2 x1 x2 a. unfold mset. destruct (Nat.eqb_spec l1 l) as [->|N1]; destruct (Nat.eqb_spec l2 l) as [->|N2]; auto.
    + intros E1 E2 I1 I2. inversion E1; subst. destruct (NO _ _ _ N2 E2 I2). contradiction.
    + intros E1 E2 I1 I2. inversion E2; subst. destruct (NO _ _ _ N1 E1 I1). contradiction.
    + apply (rl_disj _ _ R).
  - intros a La. destruct (in_dec Nat.eq_dec a (poss x')) as [I|I].
    + exists l, x'. unfold mset. rewrite Nat.eqb_refl. auto.
    + assert (Q : ~ (exists x, sp l = Some x /\ In a (poss x))).
      { intros (x & Ex & Ix). apply La. eapply G; eauto. }
      destruct (F a I Q) as (E & _). rewrite E in La. destruct (rl_leak _ _ R a La) as (l2 & x2 & E2 & I2).
      exists l2, x2. unfold mset. destruct (Nat.eqb_spec l2 l) as [->|]; [|auto]. exfalso. eauto.
  - assert (I : ~ In 0 (poss x')).
    { intros I. destruct (N 0 I) as [(x & Ex & Ix)|[Q _]]; [|congruence].
      destruct (rl_some _ _ R _ _ Ex) as [_ Lx]. eapply lrep_live in Ix; [|exact Lx]. apply Ix, (rl_null _ _ R). }
    destruct (F 0 I) as (E & _).
    + intros (x & Ex & Ix). destruct (rl_some _ _ R _ _ Ex) as [_ Lx]. eapply lrep_live in Ix; [|exact Lx].
      apply Ix, (rl_null _ _ R).
    + rewrite E. apply (rl_null _ _ R).
Qed.

(** The same with an inserted element. *)
Lemma rel_insert s sp l h' x x' a : rel s sp -> sp l = Some x -> fresh sp a ->
  lrep h' x' -> (forall b, In b (poss x') <-> b = a \/ In b (poss x)) -> sl_end x' = sl_end x ->
  length (sl_elems x') = S (length (sl_elems x)) -> ins_frame (s_heap s) h' x a ->
  rel (Sys h' (mset (s_lists s) l (Some (LObj (sl_end x) (Z.of_nat (length (sl_elems x)) + 1))))) (mset sp l (Some x')).
Proof.
  intros R E F L P En Le Fr. eapply rel_upd; eauto.
  - rewrite En, Le. f_equal. lia.
  - intros b I. apply P in I. destruct I as [->|I]; [right; exact F|left; eauto].
  - intros b I Q. apply Fr.
    + intros I'. apply Q. eauto.
    + intros ->. apply I, P. auto.
  - intros x2 b E2 I2 N2. rewrite E in E2. inversion E2; subst. exfalso. apply N2, P. auto.
Qed.

Lemma rel_push_back s sp l x v a : rel s sp -> sp l = Some x -> fresh sp a ->
  exists h' o o', s_lists s l = Some o /\ push_back (s_heap s) o v a = Some (h', o') /\
    rel (Sys h' (mset (s_lists s) l (Some o'))) (mset sp l (Some (SL (sl_end x) (sl_elems x ++ [(a, v)])))).
Proof.
  intros R E F. destruct (rl_some _ _ R _ _ E) as [Eo L]. destruct (fresh_dead _ _ _ R F) as [A0 A1].
  destruct x as [e xs]. cbn [sl_end sl_elems] in *.
  destruct (push_back_step (s_heap s) (LObj e (Z.of_nat (length xs))) e xs v a eq_refl L A0 A1) as (h' & E1 & L1 & F1).
  exists h', (LObj e (Z.of_nat (length xs))), (LObj e (Z.of_nat (length xs) + 1)). split; [exact Eo|]. split; [exact E1|].
  eapply rel_insert with (x := SL e xs) (a := a); eauto.
  - intros b. unfold poss. cbn [sl_end sl_elems]. rewrite map_app. cbn [In map fst]. rewrite in_app_iff. cbn. intuition congruence.
  - cbn [sl_elems]. rewrite app_length. cbn. lia.
Qed.

Lemma fresh_mset (sp : sstate) l x x' a : sp l = Some x -> (forall b, In b (poss x') -> b = a \/ In b (poss x)) ->
  forall c, fresh sp c -> c <> a -> fresh (mset sp l (Some x')) c.
Proof.
  intros E P c [C F] N. split; [exact C|]. intros l2 s2. unfold mset. destruct (Nat.eqb_spec l2 l) as [->|].
  - intros E2 I. inversion E2; subst. destruct (P _ I) as [->|I']; [congruence|]. eapply F; eauto.
  - apply F.
Qed.

Lemma fresh_all_mset (sp : sstate) l x x' a : sp l = Some x -> (forall b, In b (poss x') -> b = a \/ In b (poss x)) ->
  forall cs, fresh_all sp cs -> ~ In a cs -> fresh_all (mset sp l (Some x')) cs.
Proof.
  intros E P cs. induction cs as [|c cs IH]; cbn [fresh_all In]; [auto|].
  intros (F1 & F2 & F3) N. split; [|split; [exact F2|apply IH; auto]].
  eapply fresh_mset; eauto.
Qed.

Lemma rel_copy dst src x e : forall addrs s sp y rest p,
  rel s sp -> dst <> src -> sp src = Some x -> sp dst = Some (SL e y) ->
  (exists pre, sl_elems x = pre ++ rest) ->
  p = match rest with [] => sl_end x | (q, _) :: _ => q end ->
  fresh_all sp addrs -> length addrs = length rest ->
  exists s', copy_loop s dst src p addrs = Some s' /\
    rel s' (mset sp dst (Some (SL e (y ++ combine addrs (map snd rest))))).
Proof.
  induction addrs as [|a addrs IH]; intros s sp y rest p R N Es Ed (pre & Ep) -> F Len; cbn [copy_loop].
  - destruct rest; [|discriminate]. destruct (rl_some _ _ R _ _ Es) as [Eo L]. rewrite Eo. cbn [l_head].
    rewrite Nat.eqb_refl. eexists; split; [reflexivity|]. cbn. rewrite app_nil_r.
    eapply rel_ext; [|exact R]. intros l. unfold mset. destruct (Nat.eqb_spec l dst) as [->|]; auto.
  - destruct rest as [|[q v] rest]; [discriminate|]. cbn [fresh_all] in F. destruct F as (F1 & F2 & F3).
    destruct (rl_some _ _ R _ _ Es) as [Eo L]. rewrite Eo. cbn [l_head].
    assert (Hq : get_obj (s_heap s) q = Some v).
    { destruct x as [ex xs]. cbn [sl_end sl_elems] in *. subst xs. apply lrep_mid in L. tauto. }
    assert (q <> sl_end x).
    { intros ->. destruct L as (_ & D & _). unfold poss in D. rewrite Ep, map_app in D. inversion D; subst.
      apply H1, in_or_app. cbn. auto. }
    destruct (Nat.eqb_spec q (sl_end x)); [contradiction|]. rewrite Hq.
    destruct (rel_push_back s sp dst _ v a R Ed F1) as (h' & o & o' & Eo1 & Ep1 & R').
    rewrite Eo1, Ep1. cbn [sl_end sl_elems] in R'.
    assert (Es' : mset sp dst (Some (SL e (y ++ [(a, v)]))) src = Some x).
    { unfold mset. destruct (Nat.eqb_spec src dst); [congruence|exact Es]. }
    destruct (rl_some _ _ R' _ _ Es') as [_ L']. cbn [s_heap] in L'.
    assert (Hn : get_next h' q = Some (match rest with [] => sl_end x | (q, _) :: _ => q end)).
    { destruct x as [ex xs]. cbn [sl_end sl_elems] in *. subst xs. apply lrep_mid in L'. tauto. }
    rewrite Hn.
    assert (Ed' : mset sp dst (Some (SL e (y ++ [(a, v)]))) dst = Some (SL e (y ++ [(a, v)]))).
    { unfold mset. rewrite Nat.eqb_refl. reflexivity. }
    destruct (IH _ _ (y ++ [(a, v)]) rest (match rest with [] => sl_end x | (q, _) :: _ => q end) R' N Es' Ed') as (s' & E & RR).
    + exists (pre ++ [(q, v)]). rewrite <- app_assoc. exact Ep.
    + reflexivity.
    + eapply fresh_all_mset with (a := a); eauto. intros b. unfold poss. cbn [sl_end sl_elems In].
      rewrite map_app, in_app_iff. cbn. intuition congruence.
    + cbn in Len. lia.
    + exists s'. split; [exact E|]. eapply rel_ext; [|exact RR]. intros l. unfold mset.
      destruct (l =? dst); [|reflexivity]. rewrite <- app_assoc. reflexivity.
Qed.

Lemma rel_copy_from s sp dst src x e addrs :
  rel s sp -> dst <> src -> sp src = Some x -> sp dst = Some (SL e []) ->
  fresh_all sp addrs -> length addrs = length (sl_elems x) ->
  exists s', copy_from s dst src addrs = Some s' /\
    rel s' (mset sp dst (Some (SL e (combine addrs (map snd (sl_elems x)))))).
Proof.
  intros R N Es Ed F Len. unfold copy_from. destruct (rl_some _ _ R _ _ Es) as [Eo L]. rewrite Eo. cbn [l_head].
  destruct x as [ex xs]. cbn [sl_end sl_elems] in *. destruct (lrep_end _ _ _ L) as [_ Hn]. rewrite Hn.
  eapply (rel_copy dst src (SL ex xs) e addrs s sp [] xs); eauto. exists []. reflexivity.
Qed.

Lemma rel_new s sp l a : rel s sp -> sp l = None -> fresh sp a ->
  exists h', new_list (s_heap s) a = Some (h', LObj a 0) /\
    rel (Sys h' (mset (s_lists s) l (Some (LObj a 0)))) (mset sp l (Some (SL a []))).
Proof.
  intros R E F. destruct (fresh_dead _ _ _ R F) as [A0 A1]. unfold new_list.
  destruct (alloc_ok (s_heap s) a None A0 A1) as (h1 & E1 & [V1 V2 V3]). rewrite E1.
  destruct (set_next_ok h1 a a) as (h2 & E2 & [W1 W2 W3]); [rewrite V1, Nat.eqb_refl; discriminate|]. rewrite E2.
  destruct (set_prev_ok h2 a a) as (h3 & E3 & [X1 X2 X3]); [rewrite W1, Nat.eqb_refl; discriminate|]. rewrite E3.
  exists h3. split; [reflexivity|]. eapply rel_upd; eauto.
  - repeat split.
    + cbn. rewrite X1, W1, Nat.eqb_refl. reflexivity.
    + cbn. rewrite X2, Nat.eqb_refl. reflexivity.
    + constructor; [intros []|constructor].
    + cbn. rewrite X3, W3, V3, Nat.eqb_refl. reflexivity.
  - intros b [<-|[]]. right. exact F.
  - intros b I _. assert (b <> a) by (intros ->; apply I; left; reflexivity).
    unfold same. rewrite X1, X2, X3, W1, W2, W3, V1, V2, V3. destruct (Nat.eqb_spec b a); [contradiction|]. auto.
  - intros x b Ex. congruence.
Qed.

Lemma rel_clear s sp l x : rel s sp -> sp l = Some x ->
  exists h' o, s_lists s l = Some o /\ clear (s_heap s) o = Some (h', LObj (sl_end x) 0) /\
    rel (Sys h' (mset (s_lists s) l (Some (LObj (sl_end x) 0)))) (mset sp l (Some (SL (sl_end x) []))).
Proof.
  intros R E. destruct (rl_some _ _ R _ _ E) as [Eo L]. destruct x as [e xs]. cbn [sl_end sl_elems] in *.
  destruct (clear_step (s_heap s) (LObj e (Z.of_nat (length xs))) e xs eq_refl eq_refl L) as (h' & E1 & L1 & G1 & G2).
  exists h', (LObj e (Z.of_nat (length xs))). split; [exact Eo|]. split; [exact E1|].
  eapply rel_upd; eauto.
  - intros b [<-|[]]. left. exists (SL e xs). split; [exact E|left; reflexivity].
  - intros b I Q. apply G2. intros I'. apply Q. eauto.
  - intros x b Ex I N. rewrite E in Ex. inversion Ex; subst. apply G1.
    destruct I as [<-|I]; [exfalso; apply N; left; reflexivity|exact I].
Qed.

Lemma poss_insert e (u z : list (nat * T)) a v b :
  In b (poss (SL e (u ++ (a, v) :: z))) <-> b = a \/ In b (poss (SL e (u ++ z))).
Proof.
  unfold poss. cbn [sl_end sl_elems In]. rewrite !map_app, !in_app_iff. cbn [map fst In]. intuition congruence.
Qed.

Lemma rel_erase s sp l e u w x z : rel s sp -> sp l = Some (SL e (u ++ (w, x) :: z)) ->
  exists h' o o', s_lists s l = Some o /\ l_head o = e /\ l_size o = Z.of_nat (length (u ++ (w, x) :: z)) /\
    erase (s_heap s) o w = Some (h', o', match z with [] => e | (q, _) :: _ => q end) /\
    rel (Sys h' (mset (s_lists s) l (Some o'))) (mset sp l (Some (SL e (u ++ z)))).
Proof.
  intros R E. destruct (rl_some _ _ R _ _ E) as [Eo L]. cbn [sl_end sl_elems] in *.
  set (o := LObj e (Z.of_nat (length (u ++ (w, x) :: z)))) in *.
  destruct (erase_step (s_heap s) o e u w x z L) as (h' & E1 & L1 & G1 & G2).
  exists h', o, (LObj (l_head o) (l_size o - 1)). split; [exact Eo|]. do 2 (split; [reflexivity|]). split; [exact E1|].
  eapply rel_upd; eauto.
  - cbn [sl_end sl_elems o l_head l_size]. rewrite !app_length. cbn [length]. f_equal. lia.
  - intros b I. left. exists (SL e (u ++ (w, x) :: z)). split; [exact E|]. apply poss_insert. auto.
  - intros b I Q. apply G2. intros I'. apply Q. eauto.
  - intros y b Ey I N. rewrite E in Ey. inversion Ey; subst. apply poss_insert in I. destruct I as [->|I]; [exact G1|contradiction].
Qed.

Lemma rel_insert_mid s sp l e u w x z v a : rel s sp -> sp l = Some (SL e (u ++ (w, x) :: z)) -> fresh sp a ->
  exists h' o o', s_lists s l = Some o /\ l_head o = e /\ l_size o = Z.of_nat (length (u ++ (w, x) :: z)) /\
    insert (s_heap s) o w v a = Some (h', o', a) /\
    rel (Sys h' (mset (s_lists s) l (Some o'))) (mset sp l (Some (SL e (u ++ (a, v) :: (w, x) :: z)))).
Proof.
  intros R E F. destruct (rl_some _ _ R _ _ E) as [Eo L]. destruct (fresh_dead _ _ _ R F) as [A0 A1].
  cbn [sl_end sl_elems] in *. set (o := LObj e (Z.of_nat (length (u ++ (w, x) :: z)))) in *.
  destruct (insert_step_mid (s_heap s) o e u w x z v a L A0 A1) as (h' & E1 & L1 & G1).
  exists h', o, (LObj (l_head o) (l_size o + 1)). split; [exact Eo|]. do 2 (split; [reflexivity|]). split; [exact E1|].
  eapply rel_insert with (x := SL e (u ++ (w, x) :: z)) (a := a); eauto.
  - intros b. apply poss_insert.
  - cbn [sl_elems]. rewrite !app_length. cbn [length]. lia.
Qed.

Lemma rel_insert_end s sp l e xs v a : rel s sp -> sp l = Some (SL e xs) -> fresh sp a ->
  exists h' o o', s_lists s l = Some o /\ insert (s_heap s) o e v a = Some (h', o', a) /\
    rel (Sys h' (mset (s_lists s) l (Some o'))) (mset sp l (Some (SL e (xs ++ [(a, v)])))).
Proof.
  intros R E F. destruct (rl_some _ _ R _ _ E) as [Eo L]. destruct (fresh_dead _ _ _ R F) as [A0 A1].
  cbn [sl_end sl_elems] in *. set (o := LObj e (Z.of_nat (length xs))) in *.
  destruct (insert_step_end (s_heap s) o e xs v a L A0 A1) as (h' & E1 & L1 & G1).
  exists h', o, (LObj (l_head o) (l_size o + 1)). split; [exact Eo|]. split; [exact E1|].
  eapply rel_insert with (x := SL e xs) (a := a); eauto.
  - intros b. rewrite poss_insert, app_nil_r. reflexivity.
  - cbn [sl_elems]. rewrite !app_length. cbn [length]. lia.
Qed.

Lemma end_not_elem (h : heap) e u r : lrep h (SL e (u ++ r)) -> ~ In e (keys u).
Proof.
  intros (_ & D & _) I. unfold poss in D. cbn [sl_end sl_elems] in D. rewrite map_app in D.
  inversion D; subst. apply H1, in_or_app. auto.
Qed.

Lemma start_chain (h : heap) e xs : lrep h (SL e xs) -> exists b, get_next h e = Some b /\ fchain h b xs e.
Proof. intros (S & _). apply seg_fchain. exact S. Qed.

Lemma fuel_split (o : lobj) (u r : list (nat * T)) : l_size o = Z.of_nat (length (u ++ r)) ->
  fuel o = length u + S (length r).
Proof. intros E. unfold fuel. rewrite E, Nat2Z.id, app_length. lia. Qed.

(** ** Every operation *)
Theorem upd_refines s sp l o x r : rel s sp -> supd eqb ltb sp l o x r ->
  exists s', step eqb ltb s o = Some (s', r) /\ rel s' (mset sp l (Some x)).
Proof.
  intros R U. destruct U; cbn [step].
  - (* New *) rewrite (rl_none _ _ R _ H). destruct (rel_new _ _ _ _ R H H0) as (h' & E & R').
    rewrite E. cbn. eauto.
  - (* Copy *) rewrite (rl_none _ _ R _ H). cbn [fresh_all] in H1. destruct H1 as (F1 & F2 & F3).
    destruct (rel_new _ _ _ _ R H F1) as (h' & E & R'). rewrite E. cbn [upd_list].
    assert (N : l <> src) by congruence.
    destruct (rel_copy_from _ _ l src s0 a addrs R' N) as (s' & E' & R'').
    + unfold mset. destruct (Nat.eqb_spec src l); [congruence|exact H0].
    + unfold mset. rewrite Nat.eqb_refl. reflexivity.
    + clear - F2 F3 H. induction addrs as [|c cs IH]; cbn [fresh_all In] in *; [auto|].
      destruct F3 as ((Q1 & Q2) & Q3 & Q4). split; [|split; [exact Q3|apply IH; tauto]].
      split; [exact Q1|]. intros l2 s2. unfold mset. destruct (Nat.eqb_spec l2 l) as [->|]; [|apply Q2].
      intros E. inversion E; subst. cbn. intuition.
    + exact H2.
    + rewrite E'. eexists; split; [reflexivity|]. eapply rel_ext; [|exact R''].
      intros l2. unfold mset. destruct (l2 =? l); reflexivity.
  - (* Assign *) destruct (rel_clear _ _ _ _ R H) as (h' & o & Eo & E & R'). rewrite Eo, E. cbn [upd_list].
    destruct (rel_copy_from _ _ l src s0 (sl_end t) addrs R' H1) as (s' & E' & R'').
    + unfold mset. destruct (Nat.eqb_spec src l); [congruence|exact H0].
    + unfold mset. rewrite Nat.eqb_refl. reflexivity.
    + clear - H2 H. induction addrs as [|c cs IH]; cbn [fresh_all In] in *; [auto|].
      destruct H2 as ((Q1 & Q2) & Q3 & Q4). split; [|split; [exact Q3|apply IH; tauto]].
      split; [exact Q1|]. intros l2 s2. unfold mset. destruct (Nat.eqb_spec l2 l) as [->|]; [|apply Q2].
      intros E I. inversion E; subst. destruct I as [I|[]]. cbn [sl_end] in I. apply (Q2 l t H). left. exact I.
    + exact H3.
    + rewrite E'. eexists; split; [reflexivity|]. eapply rel_ext; [|exact R''].
      intros l2. unfold mset. destruct (l2 =? l); reflexivity.
  - (* PushBack *) destruct (rel_push_back _ _ _ _ v _ R H H0) as (h' & o & o' & Eo & E & R').
    rewrite Eo, E. cbn. eauto.
  - (* PushFront *) destruct (rl_some _ _ R _ _ H) as [Eo L]. rewrite Eo. destruct (fresh_dead _ _ _ R H0) as [A0 A1].
    destruct s0 as [e xs]. cbn [sl_end sl_elems] in *.
    destruct (push_front_step (s_heap s) (LObj e (Z.of_nat (length xs))) e xs v a eq_refl L A0 A1) as (h' & E1 & L1 & F1).
    rewrite E1. cbn [upd_list]. eexists; split; [reflexivity|]. cbn [l_size].
    eapply rel_insert with (x := SL e xs) (a := a); eauto.
    intros b. apply (poss_insert e [] xs a v b).
  - (* PushSorted *) destruct (rl_some _ _ R _ _ H) as [Eo L]. rewrite Eo. destruct s0 as [e xs]. cbn [sl_end sl_elems] in *. subst xs.
    destruct (start_chain _ _ _ L) as (b & B & C). unfold push_sorted. cbn [l_head]. rewrite B.
    set (o := LObj e (Z.of_nat (length (u ++ w)))) in *.
    rewrite (fuel_split o u w eq_refl).
    destruct (sorted_skip (s_heap s) o v a w (S (length w)) u b C (end_not_elem _ _ _ _ L) H2) as (p' & C' & E). rewrite E.
    cbn [push_sorted_loop]. destruct w as [|[q y] w].
    + cbn [fchain] in C'. subst p'. rewrite Nat.eqb_refl. rewrite app_nil_r in *.
      destruct (rel_push_back _ _ _ _ v _ R H H0) as (h' & o1 & o' & Eo1 & E1 & R').
      rewrite Eo in Eo1. inversion Eo1; subst o1. rewrite E1. cbn [upd_list]. eexists; split; [reflexivity|exact R'].
    + cbn [fchain] in C'. destruct C' as (-> & C1 & _). cbn [l_head o].
      assert (N : q <> e).
      { intros ->. destruct L as (_ & D & _). unfold poss in D. cbn [sl_end sl_elems] in D. rewrite map_app in D.
        inversion D; subst. apply H5, in_or_app. cbn; auto. }
      destruct (Nat.eqb_spec q e); [contradiction|]. rewrite C1. pose proof (H3 _ _ eq_refl) as Hl. cbn [snd] in Hl. rewrite Hl.
      destruct (rel_insert_mid _ _ _ _ _ _ _ _ v a R H H0) as (h' & o1 & o' & Eo1 & _ & _ & E1 & R').
      rewrite Eo in Eo1. inversion Eo1; subst o1. rewrite E1. cbn [upd_list]. eexists; split; [reflexivity|exact R'].
  - (* InsertAt *) destruct s0 as [e xs]. cbn [sl_end sl_elems] in *. subst xs.
    destruct (rel_insert_mid _ _ _ _ _ _ _ _ v a R H H0) as (h' & o1 & o' & Eo1 & _ & _ & E1 & R').
    rewrite Eo1, E1. eauto.
  - (* InsertEnd *) destruct s0 as [e xs]. cbn [sl_end sl_elems] in *.
    destruct (rel_insert_end _ _ _ _ _ v a R H H0) as (h' & o1 & o' & Eo1 & E1 & R').
    rewrite Eo1, E1. eauto.
  - (* Erase *) destruct s0 as [e xs]. cbn [sl_end sl_elems] in *. subst xs.
    destruct (rel_erase _ _ _ _ _ _ _ _ R H) as (h' & o1 & o' & Eo1 & _ & _ & E1 & R').
    rewrite Eo1, E1. eauto.
  - (* Remove *) destruct s0 as [e xs]. cbn [sl_end sl_elems] in *. subst xs.
    destruct (rl_some _ _ R _ _ H) as [_ L].
    destruct (rel_erase _ _ _ _ _ _ _ _ R H) as (h' & o1 & o' & Eo1 & Hh & Hs & E1 & R').
    rewrite Eo1. destruct (start_chain _ _ _ L) as (b & B & C). unfold remove. rewrite Hh, B.
    rewrite (fuel_split o1 u ((p, x) :: w) Hs). rewrite <- Hh in C.
    destruct (remove_skip (s_heap s) o1 v ((p, x) :: w) (S (length ((p, x) :: w))) u b C) as (p' & C' & E).
    + rewrite Hh. eapply end_not_elem; eauto.
    + exact H2.
    + rewrite E. cbn [remove_loop]. cbn [fchain] in C'. destruct C' as (-> & C1 & _).
      assert (N : p <> l_head o1).
      { rewrite Hh. intros ->. destruct L as (_ & D & _). unfold poss in D. cbn [sl_end sl_elems] in D. rewrite map_app in D.
        inversion D; subst. apply H4, in_or_app. cbn; auto. }
      destruct (Nat.eqb_spec p (l_head o1)); [contradiction|]. rewrite C1, H1, E1. cbn [upd_list]. eauto.
  - (* RemoveNot *) destruct s0 as [e xs]. cbn [sl_end sl_elems] in *.
    destruct (rl_some _ _ R _ _ H) as [Eo L]. rewrite Eo. cbn [sl_end sl_elems] in *.
    destruct (start_chain _ _ _ L) as (b & B & C). unfold remove. cbn [l_head]. rewrite B.
    set (o := LObj e (Z.of_nat (length xs))) in *.
    assert (Fu : fuel o = length xs + 1) by (unfold fuel, o; cbn [l_size]; rewrite Nat2Z.id; lia). rewrite Fu.
    rewrite <- (app_nil_r xs) in C. destruct (remove_skip (s_heap s) o v [] 1 xs b C) as (p' & C' & E).
    + cbn [l_head o]. apply (end_not_elem (s_heap s) e xs []). rewrite app_nil_r. exact L.
    + exact H0.
    + rewrite E. cbn [remove_loop]. cbn [fchain] in C'. subst p'. rewrite Nat.eqb_refl. cbn [upd_list].
      eexists; split; [reflexivity|]. eapply rel_upd; eauto.
      * intros a I _. unfold same. auto.
      * intros x a Ex I N. rewrite H in Ex. inversion Ex; subst. contradiction.
  - (* Clear *) destruct (rel_clear _ _ _ _ R H) as (h' & o & Eo & E & R'). rewrite Eo, E. cbn. eauto.
  - (* Write *) destruct s0 as [e xs]. cbn [sl_end sl_elems] in *. subst xs.
    destruct (rl_some _ _ R _ _ H) as [Eo L]. cbn [sl_end sl_elems] in *. destruct (lrep_mid _ _ _ _ _ _ L) as (O & P & N).
    unfold get_obj in O. destruct (s_heap s p) as [n|] eqn:En; [|discriminate]. rewrite O.
    eexists; split; [reflexivity|].
    set (h' := mset (s_heap s) p (Some (Node (Some v) (n_next n) (n_prev n)))).
    assert (V : views (s_heap s) h' (get_next (s_heap s)) (get_prev (s_heap s)) (fun y => if y =? p then Some v else get_obj (s_heap s) y)).
    { split; intros y; unfold h', get_next, get_prev, get_obj, mset; destruct (Nat.eqb_spec y p) as [->|]; rewrite ?En; reflexivity. }
    destruct V as [V1 V2 V3].
    assert (L' : lrep h' (SL e (u ++ (p, v) :: w))).
    { destruct L as (S & D & OO). unfold poss in D. cbn [sl_end sl_elems] in *.
      assert (D' : NoDup ((e :: keys u) ++ p :: keys w)) by (rewrite map_app in D; exact D).
      apply NoDup_remove_2 in D'. rewrite in_app_iff in D'. apply seg_app in S. destruct S as (S1 & S2 & S3).
      split; [|split].
      - apply seg_app. cbn [sl_end sl_elems]. split; [|split].
        + eapply seg_ext; [| | |exact S1]; intros y I; [apply V1|apply V2|].
          rewrite V3. destruct (Nat.eqb_spec y p) as [->|]; [|reflexivity]. exfalso. apply D'. left. right. exact I.
        + rewrite V3, Nat.eqb_refl. reflexivity.
        + eapply seg_ext; [| | |exact S3]; intros y I; [apply V1|apply V2|].
          rewrite V3. destruct (Nat.eqb_spec y p) as [->|]; [|reflexivity]. exfalso. apply D'. right. exact I.
      - unfold poss. cbn [sl_end sl_elems]. rewrite map_app in *. exact D.
      - cbn [sl_end]. rewrite V3. destruct (Nat.eqb_spec e p) as [->|]; [|exact OO]. exfalso. apply D'. left. left. reflexivity. }
    assert (PP : forall a, In a (poss (SL e (u ++ (p, v) :: w))) <-> In a (poss (SL e (u ++ (p, x) :: w)))).
    { intros a. rewrite !poss_insert. reflexivity. }
    eapply rel_ext with (sp := mset sp l (Some (SL e (u ++ (p, v) :: w)))); [reflexivity|].
    assert (RR : rel (Sys h' (mset (s_lists s) l (Some (LObj e (Z.of_nat (length (u ++ (p, v) :: w))))))) (mset sp l (Some (SL e (u ++ (p, v) :: w))))).
    { eapply rel_upd; eauto.
      - intros a I. left. exists (SL e (u ++ (p, x) :: w)). split; [exact H|apply PP; exact I].
      - intros a I _. unfold same. rewrite V1, V2, V3. destruct (Nat.eqb_spec a p) as [->|]; [|auto].
        exfalso. apply I. apply poss_insert. auto.
      - intros y a Ey I N2. rewrite H in Ey. inversion Ey; subst. exfalso. apply N2, PP. exact I. }
    destruct RR as [Q1 Q2 Q3 Q4 Q5]. split; auto.
    + intros l2 y Ey. destruct (Q1 l2 y Ey) as [A B]. split; [|exact B]. cbn [s_lists] in *. rewrite <- A.
      unfold mset. destruct (Nat.eqb_spec l2 l) as [->|]; [|reflexivity]. rewrite Eo. rewrite !app_length. reflexivity.
    + intros l2 E2. unfold mset in E2. cbn [s_lists]. destruct (Nat.eqb_spec l2 l); [discriminate|]. apply (rl_none _ _ R _ E2).
Qed.

Theorem query_refines s sp o r : rel s sp -> squery eqb sp o r -> step eqb ltb s o = Some (s, r).
Proof.
  intros R Q. destruct Q; cbn [step].
  - (* Find *) destruct s0 as [e xs]. cbn [sl_end sl_elems] in *. subst xs.
    destruct (rl_some _ _ R _ _ H) as [Eo L]. rewrite Eo. cbn [sl_end sl_elems] in *.
    destruct (start_chain _ _ _ L) as (b & B & C). unfold find. cbn [l_head]. rewrite B.
    rewrite (fuel_split (LObj e (Z.of_nat (length (u ++ (p, x) :: w)))) u ((p, x) :: w) eq_refl).
    destruct (find_skip (s_heap s) e v ((p, x) :: w) (S (length ((p, x) :: w))) u b C (end_not_elem _ _ _ _ L) H2) as (p' & C' & E).
    rewrite E. cbn [find_loop]. cbn [fchain] in C'. destruct C' as (-> & C1 & _).
    assert (N : p <> e).
    { intros ->. destruct L as (_ & D & _). unfold poss in D. cbn [sl_end sl_elems] in D. rewrite map_app in D.
      inversion D; subst. apply H4, in_or_app. cbn; auto. }
    destruct (Nat.eqb_spec p e); [contradiction|]. rewrite C1, H1. reflexivity.
  - (* FindNot *) destruct s0 as [e xs]. cbn [sl_end sl_elems] in *.
    destruct (rl_some _ _ R _ _ H) as [Eo L]. rewrite Eo. cbn [sl_end sl_elems] in *.
    destruct (start_chain _ _ _ L) as (b & B & C). unfold find. cbn [l_head]. rewrite B.
    assert (Fu : fuel (LObj e (Z.of_nat (length xs))) = length xs + 1) by (unfold fuel; cbn [l_size]; rewrite Nat2Z.id; lia).
    rewrite Fu. rewrite <- (app_nil_r xs) in C. destruct (find_skip (s_heap s) e v [] 1 xs b C) as (p' & C' & E).
    + apply (end_not_elem (s_heap s) e xs []). rewrite app_nil_r. exact L.
    + exact H0.
    + rewrite E. cbn [find_loop]. cbn [fchain] in C'. subst p'. rewrite Nat.eqb_refl. reflexivity.
  - destruct (rl_some _ _ R _ _ H) as [Eo L]. rewrite Eo. reflexivity.
  - destruct (rl_some _ _ R _ _ H) as [Eo L]. rewrite Eo. cbn [l_size]. destruct (sl_elems s0); reflexivity.
  - destruct (rl_some _ _ R _ _ H) as [Eo L]. rewrite Eo. destruct s0 as [e xs]. cbn [sl_end sl_elems l_head] in *. subst xs.
    destruct (lrep_end _ _ _ L) as [_ ->]. destruct (lrep_mid _ _ [] _ _ _ L) as [-> _]. reflexivity.
  - destruct (rl_some _ _ R _ _ H) as [Eo L]. rewrite Eo. destruct s0 as [e xs]. cbn [sl_end sl_elems l_head] in *. subst xs.
    destruct (lrep_end _ _ _ L) as [-> _]. rewrite map_app. cbn [map fst]. rewrite last_last.
    destruct (lrep_mid _ _ _ _ _ _ L) as [-> _]. reflexivity.
  - destruct (rl_some _ _ R _ _ H) as [Eo L]. rewrite Eo. destruct s0 as [e xs]. cbn [sl_end sl_elems l_head] in *.
    destruct (lrep_end _ _ _ L) as [_ ->]. reflexivity.
  - destruct (rl_some _ _ R _ _ H) as [Eo L]. rewrite Eo. reflexivity.
  - destruct (rl_some _ _ R _ _ H) as [Eo L]. destruct s0 as [e xs].
    assert (G : get_next (s_heap s) p = Some q).
    { destruct H0 as (u & v & E). unfold poss in E. cbn [sl_end sl_elems] in E.
      destruct u as [|u0 u]; cbn [app] in E; inversion E; subst.
      - destruct (lrep_end _ _ _ L) as [_ ->]. destruct xs as [|[k y] xs]; cbn in H2; inversion H2; reflexivity.
      - assert (Hs : exists a b c, xs = a ++ (p, b) :: c /\ keys a = u).
        { clear - H2. revert u H2. induction xs as [|[k y] xs IH]; intros u H2.
          - destruct u as [|? [|? ?]]; discriminate.
          - destruct u as [|u1 u]; cbn in H2; inversion H2; subst.
            + exists [], y, xs. cbn. auto.
            + destruct (IH u) as (a & b & c & E1 & E2); [assumption|]. exists ((u1, y) :: a), b, c. cbn. subst. auto. }
        destruct Hs as (a & b & c & -> & Hu). destruct (lrep_mid _ _ _ _ _ _ L) as (_ & _ & ->).
        rewrite map_app in H2. cbn [map fst] in H2. rewrite Hu, <- app_assoc in H2. apply app_inv_head in H2.
        cbn [app] in H2. inversion H2 as [H3]. destruct c as [|[k y] r]; cbn in H3; inversion H3; reflexivity. }
    assert (p <> 0) by (intros ->; rewrite (rl_null _ _ R) in G; discriminate).
    destruct (Nat.eqb_spec p 0); [contradiction|]. rewrite G. reflexivity.
  - destruct (rl_some _ _ R _ _ H) as [Eo L]. destruct s0 as [e xs].
    assert (G : get_prev (s_heap s) p = Some q).
    { destruct H0 as (u & v & E). unfold poss in E. cbn [sl_end sl_elems] in E.
      destruct (exists_last (l := p :: v)) as (r & z & Ez); [discriminate|].
      destruct v as [|v0 v] using rev_ind.
      - assert (E' : (e :: keys xs) ++ [e] = (u ++ [q]) ++ [p]) by (rewrite <- app_assoc; exact E).
        apply app_inj_tail in E'. destruct E' as [E1 E2]. subst p. destruct (lrep_end _ _ _ L) as [-> _].
        f_equal. destruct xs as [|[k y] xs] using rev_ind; [cbn in *; destruct u as [|? [|? ?]]; cbn in E1; inversion E1; reflexivity|].
        rewrite map_app in *. cbn [map fst] in *. rewrite last_last. rewrite app_comm_cons in E1. apply app_inj_tail in E1. tauto.
      - clear IHv. assert (E' : (e :: keys xs) ++ [e] = (u ++ q :: p :: v) ++ [v0]) by (rewrite <- app_assoc; exact E).
        apply app_inj_tail in E'. destruct E' as [E1 _].
        assert (Hs : exists a b c, xs = a ++ (p, b) :: c /\ e :: keys a = u ++ [q]).
        { clear - E1. assert (E2 : keys xs = tl (u ++ [q]) ++ p :: v).
          { destruct u as [|u0 u]; cbn in E1; inversion E1; subst; cbn; [first [assumption|reflexivity]|]. rewrite <- app_assoc. assumption. }
          assert (E3 : e :: tl (u ++ [q]) = u ++ [q]).
          { destruct u as [|u0 u]; cbn in E1; inversion E1; subst; reflexivity. }
          rewrite <- E3. clear E1 E3. revert E2. generalize (tl (u ++ [q])). induction xs as [|[k y] xs IH]; intros w E.
          - destruct w; discriminate.
          - destruct w as [|w0 w]; cbn in E; inversion E; subst.
            + exists [], y, xs. cbn. auto.
            + destruct (IH w) as (a & b & c & E1 & E2); [assumption|]. exists ((w0, y) :: a), b, c. cbn. inversion E2; subst. auto. }
        destruct Hs as (a & b & c & -> & Ha). destruct (lrep_mid _ _ _ _ _ _ L) as (_ & -> & _). f_equal.
        destruct a as [|[k y] a] using rev_ind; [cbn in *; destruct u as [|? [|? ?]]; cbn in Ha; inversion Ha; reflexivity|].
        rewrite map_app in *. cbn [map fst] in *. rewrite last_last. rewrite app_comm_cons in Ha. apply app_inj_tail in Ha. tauto. }
    assert (p <> 0).
    { intros ->. destruct (prev_next_live _ _ _ G) as [z Z]. rewrite (rl_null _ _ R) in Z. discriminate. }
    destruct (Nat.eqb_spec p 0); [contradiction|]. rewrite G. reflexivity.
  - destruct (rl_some _ _ R _ _ H) as [Eo L]. destruct s0 as [e xs]. cbn [sl_elems] in H0.
    apply in_split in H0. destruct H0 as (u & w & ->). destruct (lrep_mid _ _ _ _ _ _ L) as [-> _]. reflexivity.
Qed.

Lemma destroy_refines s sp l x : rel s sp -> sp l = Some x ->
  exists s', step eqb ltb s (ODestroy l) = Some (s', RUnit) /\ rel s' (mset sp l None).
Proof.
  intros R E. cbn [step]. destruct (rel_clear _ _ _ _ R E) as (h' & o & Eo & Ec & R'). rewrite Eo.
  unfold destroy. rewrite Ec. cbn [l_head].
  assert (E' : mset sp l (Some (SL (sl_end x) [])) l = Some (SL (sl_end x) [])) by (unfold mset; rewrite Nat.eqb_refl; reflexivity).
  destruct (rl_some _ _ R' _ _ E') as [_ L]. cbn [s_heap] in L.
  destruct (lrep_end _ _ _ L) as [_ Hn]. destruct (h' (sl_end x)) as [n|] eqn:En.
  2: { apply get_next_none in En. congruence. }
  eexists; split; [reflexivity|].
  set (h2 := mset h' (sl_end x) None).
  assert (S : forall a, a <> sl_end x -> same h' h2 a).
  { intros a N. unfold same, h2, get_next, get_prev, get_obj, mset. destruct (Nat.eqb_spec a (sl_end x)); [contradiction|auto]. }
  split; cbn [s_heap s_lists].
  - intros l2 y. unfold mset at 1 2. destruct (Nat.eqb_spec l2 l) as [->|N]; [discriminate|]. intros Ey.
    assert (Ey' : mset sp l (Some (SL (sl_end x) [])) l2 = Some y).
    { unfold mset. destruct (Nat.eqb_spec l2 l); [contradiction|exact Ey]. }
    destruct (rl_some _ _ R _ _ Ey) as [A _]. split; [exact A|].
    destruct (rl_some _ _ R' _ _ Ey') as [_ B]. eapply lrep_frame; [exact B|]. intros a I. apply S. intros ->.
    apply N. eapply (rl_disj _ _ R'); [exact Ey'|exact E'|exact I|left; reflexivity].
  - intros l2. unfold mset. destruct (Nat.eqb_spec l2 l); [reflexivity|]. apply (rl_none _ _ R).
  - intros l1 l2 x1 x2 a. unfold mset. destruct (Nat.eqb_spec l1 l); [discriminate|]. destruct (Nat.eqb_spec l2 l); [discriminate|].
    apply (rl_disj _ _ R).
  - intros a La. assert (N : a <> sl_end x).
    { intros ->. apply La. unfold h2, get_next, mset. rewrite Nat.eqb_refl. reflexivity. }
    destruct (S a N) as (Sn & _). rewrite Sn in La. destruct (rl_leak _ _ R' a La) as (l2 & y & Ey & Iy).
    unfold mset in Ey. destruct (Nat.eqb_spec l2 l) as [->|N2].
    + inversion Ey; subst. destruct Iy as [Iy|[]]. cbn in Iy. congruence.
    + exists l2, y. unfold mset. destruct (Nat.eqb_spec l2 l); [contradiction|auto].
  - destruct (Nat.eq_dec 0 (sl_end x)) as [Z|Z].
    + rewrite Z. unfold h2, get_next, mset. rewrite Nat.eqb_refl. reflexivity.
    + destruct (S 0 Z) as (Sn & _). rewrite Sn. apply (rl_null _ _ R').
Qed.

Theorem step_refines s sp o sp' r : rel s sp -> sstep eqb ltb sp o sp' r ->
  exists s', step eqb ltb s o = Some (s', r) /\ rel s' sp'.
Proof.
  intros R S. destruct S.
  - eapply upd_refines; eauto.
  - exists s. split; [eapply query_refines; eauto|exact R].
  - eapply destroy_refines; eauto.
Qed.

Theorem run_refines : forall ops s sp sp' rs, rel s sp -> srun eqb ltb sp ops sp' rs ->
  exists s', run eqb ltb s ops = Some (s', rs) /\ rel s' sp'.
Proof.
  intros ops s sp sp' rs R S. revert s R. induction S; intros s R; cbn [run]; [eauto|].
  destruct (step_refines _ _ _ _ _ R H) as (s1 & E1 & R1). rewrite E1.
  destruct (IHS _ R1) as (s2 & E2 & R2). rewrite E2. eauto.
Qed.

Lemma rel0 : rel sys0 (sp0 (T := T)).
Proof. split; unfold sp0; try discriminate; cbn; auto. intros a L. exfalso. apply L. reflexivity. Qed.

Lemma rel_walks s sp l x : rel s sp -> sp l = Some x ->
  exists o b, s_lists s l = Some o /\ get_next (s_heap s) (l_head o) = Some b /\
    walk get_next (S (length (sl_elems x))) (s_heap s) b (l_head o) = Some (map snd (sl_elems x)) /\
    (exists e, get_prev (s_heap s) (l_head o) = Some e /\
      walk get_prev (S (length (sl_elems x))) (s_heap s) e (l_head o) = Some (rev (map snd (sl_elems x)))).
Proof.
  intros R E. destruct (rl_some _ _ R _ _ E) as [Eo L]. destruct x as [e xs]. cbn [sl_end sl_elems] in *.
  destruct (start_chain _ _ _ L) as (b & B & C). exists (LObj e (Z.of_nat (length xs))), b. cbn [l_head].
  assert (N : ~ In e (keys xs)) by (apply (end_not_elem (s_heap s) e xs []); rewrite app_nil_r; exact L).
  repeat split; auto.
  - apply walk_next_ok; auto.
  - exists (last (keys xs) e). split; [apply lrep_end; exact L|]. destruct L as (S & _). eapply walk_prev_ok; eauto.
Qed.
End ListRefine.
