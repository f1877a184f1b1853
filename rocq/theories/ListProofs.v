(** Proofs about SourceHook::List. *)
From Coq Require Import List ZArith Bool Arith Lia.
From Verif Require Import Seq ListModel ListSpec.
Import ListNotations.
Local Open Scope nat_scope.

Section ListProofs.
Context {T : Type}.
Notation heap := (@heap T).
Notation slist := (@slist T).
Notation sstate := (@sstate T).

(** ** Views of a heap *)
Record views (h h' : heap) (nx pv : nat -> option nat) (ob : nat -> option T) : Prop := Views {
  vw_next : forall x, get_next h' x = nx x;
  vw_prev : forall x, get_prev h' x = pv x;
  vw_obj : forall x, get_obj h' x = ob x }.

Lemma get_next_none (h : heap) x : get_next h x = None <-> h x = None.
Proof. unfold get_next. destruct (h x); split; congruence. Qed.
Lemma get_prev_none (h : heap) x : get_prev h x = None <-> h x = None.
Proof. unfold get_prev. destruct (h x); split; congruence. Qed.
Lemma next_prev_live (h : heap) x q : get_next h x = Some q -> exists p, get_prev h x = Some p.
Proof. unfold get_next, get_prev. destruct (h x); eauto; discriminate. Qed.
Lemma prev_next_live (h : heap) x q : get_prev h x = Some q -> exists p, get_next h x = Some p.
Proof. unfold get_next, get_prev. destruct (h x); eauto; discriminate. Qed.

Ltac eqbs := repeat match goal with
  | |- context [?x =? ?y] => destruct (Nat.eqb_spec x y); subst
  | H : context [?x =? ?y] |- _ => destruct (Nat.eqb_spec x y); subst
  end.

Lemma set_next_ok (h : heap) p q : get_next h p <> None ->
  exists h', set_next h p q = Some h' /\
    views h h' (fun x => if x =? p then Some q else get_next h x) (get_prev h) (get_obj h).
Proof.
  unfold get_next, set_next. intros L. destruct (h p) as [n|] eqn:E; [|congruence].
  eexists; split; [reflexivity|]. split; intros x; unfold get_next, get_prev, get_obj, mset; eqbs; try rewrite E; try reflexivity.
Qed.

Lemma set_prev_ok (h : heap) p q : get_next h p <> None ->
  exists h', set_prev h p q = Some h' /\
    views h h' (get_next h) (fun x => if x =? p then Some q else get_prev h x) (get_obj h).
Proof.
  unfold get_next, set_prev. intros L. destruct (h p) as [n|] eqn:E; [|congruence].
  eexists; split; [reflexivity|]. split; intros x; unfold get_next, get_prev, get_obj, mset; eqbs; try rewrite E; try reflexivity.
Qed.

Lemma alloc_ok (h : heap) a o : a <> 0 -> get_next h a = None ->
  exists h', alloc h a o = Some h' /\
    views h h' (fun x => if x =? a then Some 0 else get_next h x)
               (fun x => if x =? a then Some 0 else get_prev h x)
               (fun x => if x =? a then o else get_obj h x).
Proof.
  unfold get_next, alloc. intros A L. destruct (h a) eqn:E; [discriminate|].
  destruct (Nat.eqb_spec a 0); [contradiction|].
  eexists; split; [reflexivity|]. split; intros x; unfold get_next, get_prev, get_obj, mset; eqbs; reflexivity.
Qed.

Lemma delete_ok (h : heap) a v : get_obj h a = Some v ->
  exists h', delete h a = Some h' /\
    views h h' (fun x => if x =? a then None else get_next h x)
               (fun x => if x =? a then None else get_prev h x)
               (fun x => if x =? a then None else get_obj h x).
Proof.
  unfold get_obj, delete. intros E. destruct (h a) as [n|] eqn:E1; [|discriminate]. rewrite E.
  eexists; split; [reflexivity|]. split; intros x; unfold get_next, get_prev, get_obj, mset; eqbs; reflexivity.
Qed.

Lemma obj_next (h : heap) a v : get_obj h a = Some v -> get_next h a <> None.
Proof. unfold get_obj, get_next. destruct (h a); congruence. Qed.

(** ** insert, push_back, erase *)
Definition ins_views (h h' : heap) w p v a : Prop :=
  views h h' (fun x => if x =? a then Some w else if x =? p then Some a else get_next h x)
             (fun x => if x =? w then Some a else if x =? a then Some p else get_prev h x)
             (fun x => if x =? a then Some v else get_obj h x).

Lemma insert_ok (h : heap) l w v a p : a <> 0 -> get_next h a = None ->
  get_prev h w = Some p -> get_next h p <> None ->
  exists h', insert h l w v a = Some (h', LObj (l_head l) (l_size l + 1), a) /\ ins_views h h' w p v a.
Proof.
  intros A L W P. unfold insert.
  assert (Ga : get_prev h a = None) by (apply get_prev_none, get_next_none, L).
  assert (Wa : w <> a) by congruence.
  assert (Pa : p <> a) by congruence.
  assert (Lw : get_next h w <> None) by (destruct (prev_next_live _ _ _ W) as [? ->]; discriminate).
  destruct (alloc_ok h a (Some v) A L) as (h1 & E1 & [N1 P1 O1]). rewrite E1.
  rewrite P1. destruct (Nat.eqb_spec w a); [contradiction|]. rewrite W.
  destruct (set_next_ok h1 p a) as (h2 & E2 & [N2 P2 O2]).
  { rewrite N1. destruct (Nat.eqb_spec p a); [contradiction|exact P]. }
  rewrite E2, P2, P1. destruct (Nat.eqb_spec w a); [contradiction|]. rewrite W.
  destruct (set_prev_ok h2 a p) as (h3 & E3 & [N3 P3 O3]).
  { rewrite N2. destruct (Nat.eqb_spec a p); [congruence|]. rewrite N1, Nat.eqb_refl. discriminate. }
  rewrite E3. destruct (set_prev_ok h3 w a) as (h4 & E4 & [N4 P4 O4]).
  { rewrite N3, N2. destruct (Nat.eqb_spec w p); [discriminate|]. rewrite N1.
    destruct (Nat.eqb_spec w a); [contradiction|exact Lw]. }
  rewrite E4. destruct (set_next_ok h4 a w) as (h5 & E5 & [N5 P5 O5]).
  { rewrite N4, N3, N2. destruct (Nat.eqb_spec a p); [discriminate|]. rewrite N1, Nat.eqb_refl. discriminate. }
  rewrite E5. eexists; split; [reflexivity|]. split; intros x.
  - rewrite N5, N4, N3, N2, N1. eqbs; reflexivity.
  - rewrite P5, P4, P3, P2, P1. eqbs; reflexivity.
  - rewrite O5, O4, O3, O2, O1. reflexivity.
Qed.

Lemma push_back_ok (h : heap) l v a p : a <> 0 -> get_next h a = None ->
  get_prev h (l_head l) = Some p -> get_next h p <> None ->
  exists h', push_back h l v a = Some (h', LObj (l_head l) (l_size l + 1)) /\ ins_views h h' (l_head l) p v a.
Proof.
  set (w := l_head l). intros A L W P. unfold push_back. fold w.
  assert (Ga : get_prev h a = None) by (apply get_prev_none, get_next_none, L).
  assert (Wa : w <> a) by congruence.
  assert (Pa : p <> a) by congruence.
  assert (Lw : get_next h w <> None) by (destruct (prev_next_live _ _ _ W) as [? ->]; discriminate).
  destruct (alloc_ok h a (Some v) A L) as (h1 & E1 & [N1 P1 O1]). rewrite E1.
  rewrite P1. destruct (Nat.eqb_spec w a); [contradiction|]. rewrite W.
  destruct (set_prev_ok h1 a p) as (h2 & E2 & [N2 P2 O2]).
  { rewrite N1, Nat.eqb_refl. discriminate. }
  rewrite E2. destruct (set_next_ok h2 a w) as (h3 & E3 & [N3 P3 O3]).
  { rewrite N2, N1, Nat.eqb_refl. discriminate. }
  rewrite E3, P3, P2. destruct (Nat.eqb_spec w a); [contradiction|]. rewrite P1.
  destruct (Nat.eqb_spec w a); [contradiction|]. rewrite W.
  destruct (set_next_ok h3 p a) as (h4 & E4 & [N4 P4 O4]).
  { rewrite N3, N2, N1. destruct (Nat.eqb_spec p a); [contradiction|exact P]. }
  rewrite E4. destruct (set_prev_ok h4 w a) as (h5 & E5 & [N5 P5 O5]).
  { rewrite N4, N3, N2, N1. eqbs; try discriminate; try contradiction. exact Lw. }
  rewrite E5. eexists; split; [reflexivity|]. split; intros x.
  - rewrite N5, N4, N3, N2, N1. eqbs; try reflexivity; contradiction.
  - rewrite P5, P4, P3, P2, P1. eqbs; reflexivity.
  - rewrite O5, O4, O3, O2, O1. reflexivity.
Qed.

Definition era_views (h h' : heap) w p q : Prop :=
  views h h' (fun x => if x =? w then None else if x =? p then Some q else get_next h x)
             (fun x => if x =? w then None else if x =? q then Some p else get_prev h x)
             (fun x => if x =? w then None else get_obj h x).

Lemma erase_ok (h : heap) l w v p q : get_obj h w = Some v ->
  get_prev h w = Some p -> get_next h w = Some q -> get_next h p <> None -> get_next h q <> None ->
  p <> w -> q <> w ->
  exists h', erase h l w = Some (h', LObj (l_head l) (l_size l - 1), q) /\ era_views h h' w p q.
Proof.
  intros O P Q Lp Lq Pw Qw. unfold erase. rewrite Q, P.
  destruct (set_next_ok h p q Lp) as (h1 & E1 & [N1 P1 O1]). rewrite E1, N1.
  destruct (Nat.eqb_spec w p); [congruence|]. rewrite Q, P1, P.
  destruct (set_prev_ok h1 q p) as (h2 & E2 & [N2 P2 O2]).
  { rewrite N1. destruct (q =? p); [discriminate|exact Lq]. }
  rewrite E2. destruct (delete_ok h2 w v) as (h3 & E3 & [N3 P3 O3]). { rewrite O2, O1. exact O. }
  rewrite E3. eexists; split; [reflexivity|]. split; intros x.
  - rewrite N3, N2, N1. reflexivity.
  - rewrite P3, P2, P1. reflexivity.
  - rewrite O3, O2, O1. reflexivity.
Qed.

(** ** Chains *)
Fixpoint seg (h : heap) (p : nat) (xs : list (nat * T)) (q : nat) : Prop :=
  match xs with
  | [] => get_next h p = Some q /\ get_prev h q = Some p
  | (a, v) :: r => get_next h p = Some a /\ get_prev h a = Some p /\ get_obj h a = Some v /\ seg h a r q
  end.

Notation keys := (map (@fst nat T)).

Lemma seg_app (h : heap) a v ys q : forall xs p,
  seg h p (xs ++ (a, v) :: ys) q <-> seg h p xs a /\ get_obj h a = Some v /\ seg h a ys q.
Proof.
  induction xs as [|[b y] xs IH]; intros p; cbn [seg app].
  - tauto.
  - rewrite IH. tauto.
Qed.

Lemma seg_ext (h h' : heap) q : forall xs p,
  (forall a, In a (p :: keys xs) -> get_next h' a = get_next h a) ->
  (forall a, In a (keys xs ++ [q]) -> get_prev h' a = get_prev h a) ->
  (forall a, In a (keys xs) -> get_obj h' a = get_obj h a) ->
  seg h p xs q -> seg h' p xs q.
Proof.
  induction xs as [|[b y] xs IH]; intros p N P O S; cbn [seg map fst app] in *.
  - rewrite N, P by (left; reflexivity). exact S.
  - destruct S as (S1 & S2 & S3 & S4).
    rewrite (N p), (P b), (O b) by (left; reflexivity). repeat split; auto.
    apply IH; auto; intros a I; [apply N|apply P|apply O]; right; exact I.
Qed.

Lemma seg_last (h : heap) q : forall xs p, seg h p xs q ->
  get_prev h q = Some (last (keys xs) p) /\ get_next h (last (keys xs) p) = Some q.
Proof.
  induction xs as [|[b y] xs IH]; intros p S; cbn [seg map fst last] in *.
  - tauto.
  - destruct S as (_ & _ & _ & S). destruct (IH b S) as [E1 E2].
    destruct xs as [|[c z] xs]; [cbn in *; tauto|].
    cbn [map fst] in *. assert (L : forall d, last (c :: keys xs) d = last (c :: keys xs) p).
    { clear. generalize c. induction (keys xs) as [|e r IHr]; intros c' d; [reflexivity|].
      change (last (e :: r) d = last (e :: r) p). apply IHr. }
    rewrite (L b) in E1, E2. split; assumption.
Qed.

Lemma last_snoc {A} (l : list A) x d : last (l ++ [x]) d = x.
Proof. apply last_last. Qed.

(** Change the end of a chain. *)
Lemma seg_relink (h h' : heap) w a p xs : seg h p xs w ->
  NoDup (p :: keys xs) ->
  let e := last (keys xs) p in
  (forall b, In b (p :: keys xs) -> b <> e -> get_next h' b = get_next h b) ->
  (forall b, In b (keys xs) -> get_prev h' b = get_prev h b) ->
  (forall b, In b (keys xs) -> get_obj h' b = get_obj h b) ->
  get_next h' e = Some a -> get_prev h' a = Some e -> seg h' p xs a.
Proof.
  intros S D e N P O E1 E2.
  destruct xs as [|[b y] xs _] using rev_ind; [cbn in e; subst e; cbn; auto|].
  unfold e in *. clear e. rewrite map_app in *. cbn [map fst] in *. rewrite last_snoc in *.
  apply seg_app in S. destruct S as (S1 & S2 & _).
  apply seg_app. split; [|split].
  - eapply seg_ext; [| | |exact S1].
    + intros c I. apply N.
      * destruct I as [->|I]; [left; reflexivity|right; apply in_or_app; auto].
      * intros ->. rewrite app_comm_cons in D. apply NoDup_remove_2 in D. rewrite app_nil_r in D. auto.
    + intros c I. apply P. exact I.
    + intros c I. apply O. apply in_or_app. auto.
  - rewrite O; [exact S2|apply in_or_app; cbn; auto].
  - cbn. auto.
Qed.

Definition lrep (h : heap) (s : slist) : Prop :=
  seg h (sl_end s) (sl_elems s) (sl_end s) /\ NoDup (poss s) /\ get_obj h (sl_end s) = None.

Lemma seg_live (h : heap) q : forall xs p, seg h p xs q -> forall x, In x (p :: keys xs) -> get_next h x <> None.
Proof.
  induction xs as [|[b y] xs IH]; intros p S x I; cbn [seg map fst] in *.
  - destruct I as [->|[]]. destruct S as [-> _]. discriminate.
  - destruct S as (S1 & _ & _ & S). destruct I as [->|I]; [rewrite S1; discriminate|]. eapply IH; eauto.
Qed.

Lemma lrep_live (h : heap) s x : lrep h s -> In x (poss s) -> get_next h x <> None.
Proof. intros (S & _) I. eapply seg_live; eauto. Qed.

Definition same (h h' : heap) (x : nat) : Prop :=
  get_next h' x = get_next h x /\ get_prev h' x = get_prev h x /\ get_obj h' x = get_obj h x.

Lemma lrep_frame (h h' : heap) s : lrep h s -> (forall x, In x (poss s) -> same h h' x) -> lrep h' s.
Proof.
  intros (S & D & O) E. split; [|split; [exact D|]].
  - eapply seg_ext; [| | |exact S]; intros a I; apply E; unfold poss.
    + exact I.
    + apply in_app_or in I. destruct I as [I|[->|[]]]; cbn; auto.
    + right. exact I.
  - destruct (E (sl_end s)) as (_ & _ & ->); [left; reflexivity|exact O].
Qed.

(** The elements from some position on, by following the next pointers. *)
Fixpoint fchain (h : heap) (p : nat) (xs : list (nat * T)) (e : nat) : Prop :=
  match xs with
  | [] => p = e
  | (a, v) :: r => p = a /\ get_obj h a = Some v /\ exists q, get_next h a = Some q /\ fchain h q r e
  end.

Lemma seg_fchain (h : heap) q : forall xs p, seg h p xs q -> exists b, get_next h p = Some b /\ fchain h b xs q.
Proof.
  induction xs as [|[b y] xs IH]; intros p S; cbn [seg fchain] in *.
  - destruct S as [-> _]. eauto.
  - destruct S as (S1 & _ & S3 & S4). exists b. split; [exact S1|].
    destruct (IH b S4) as (c & C1 & C2). repeat split; eauto.
Qed.

Definition first_pos (s : slist) (xs : list (nat * T)) : nat :=
  match xs with [] => sl_end s | (p, _) :: _ => p end.

Lemma fchain_first (h : heap) s p xs : fchain h p xs (sl_end s) -> p = first_pos s xs.
Proof. destruct xs as [|[a v] r]; cbn; [auto|tauto]. Qed.

(** Inserting before position [w]. *)
Lemma lrep_insert_mid (h h' : heap) e u w x z v a :
  lrep h (SL e (u ++ (w, x) :: z)) -> ~ In a (poss (SL e (u ++ (w, x) :: z))) ->
  ins_views h h' w (last (keys u) e) v a ->
  lrep h' (SL e (u ++ (a, v) :: (w, x) :: z)).
Proof.
  intros (S & D & O) F [N P B]. unfold poss in *. cbn [sl_end sl_elems] in *.
  assert (D' : NoDup (e :: keys (u ++ (a, v) :: (w, x) :: z))).
  { rewrite !map_app in *. cbn [map fst] in *. rewrite app_comm_cons in *.
    apply NoDup_Add with (a := a) (l := (e :: keys u) ++ w :: keys z); [apply Add_app|]. auto. }
  apply seg_app in S. destruct S as (S1 & S2 & S3).
  assert (Dk : NoDup (e :: keys u)).
  { rewrite map_app, app_comm_cons in D. apply nodup_app_l in D. exact D. }
  assert (Du : forall b, In b (e :: keys u) -> b <> w /\ b <> a /\ ~ In b (keys z)).
  { intros b I. rewrite map_app, app_comm_cons in D'. cbn [map fst] in D'.
    assert (G : forall c, In c (a :: w :: keys z) -> b <> c).
    { intros c Ic ->. clear - D' I Ic. induction (e :: keys u) as [|d r IH]; [destruct I|].
      cbn [app] in D'. inversion D'; subst. destruct I as [->|I]; [apply H1, in_or_app; auto|auto]. }
    repeat split; [apply G; cbn; auto|apply G; cbn; auto|intros Ib; apply (G b); cbn; auto]. }
  assert (Dz : NoDup (a :: w :: keys z)).
  { rewrite map_app, app_comm_cons in D'. cbn [map fst] in D'. clear - D'.
    induction (e :: keys u) as [|d r IH]; [exact D'|]. cbn in D'. inversion D'; auto. }
  inversion Dz as [|? ? Da Dz']; subst. inversion Dz' as [|? ? Dw Dz'']; subst.
  assert (Le : In (last (keys u) e) (e :: keys u)).
  { clear. destruct (keys u) as [|c r] using rev_ind; [left; reflexivity|].
    rewrite last_snoc. right. apply in_or_app. cbn; auto. }
  assert (Lw : last (keys u) e <> w) by (apply Du; exact Le).
  assert (La : last (keys u) e <> a) by (apply Du; exact Le).
  split; [|split; [exact D'|]].
  - cbn [sl_end sl_elems]. apply seg_app. split; [|split].
    + eapply seg_relink; [exact S1|exact Dk| | | | |].
      * intros b I Nb. rewrite N. destruct (Du b I) as (? & ? & ?).
        destruct (Nat.eqb_spec b a); [contradiction|]. destruct (Nat.eqb_spec b (last (keys u) e)); [contradiction|reflexivity].
      * intros b I. rewrite P. destruct (Du b (or_intror I)) as (? & ? & ?).
        destruct (Nat.eqb_spec b w); [contradiction|]. destruct (Nat.eqb_spec b a); [contradiction|reflexivity].
      * intros b I. rewrite B. destruct (Du b (or_intror I)) as (? & ? & ?).
        destruct (Nat.eqb_spec b a); [contradiction|reflexivity].
      * rewrite N. destruct (Nat.eqb_spec (last (keys u) e) a); [contradiction|].
        rewrite Nat.eqb_refl. reflexivity.
      * rewrite P. destruct (Nat.eqb_spec a w) as [->|]; [exfalso; apply Da; left; reflexivity|].
        rewrite Nat.eqb_refl. reflexivity.
    + rewrite B, Nat.eqb_refl. reflexivity.
    + cbn [seg]. split; [rewrite N, Nat.eqb_refl; reflexivity|].
      split; [rewrite P, Nat.eqb_refl; reflexivity|].
      split; [rewrite B; destruct (Nat.eqb_spec w a) as [->|]; [exfalso; apply Da; left; reflexivity|exact S2]|].
      eapply seg_ext; [| | |exact S3].
      * intros b I. rewrite N. destruct (Nat.eqb_spec b a) as [->|]; [exfalso; apply Da; exact I|].
        destruct (Nat.eqb_spec b (last (keys u) e)) as [->|]; [|reflexivity].
        destruct I as [->|I]; [contradiction|]. exfalso. eapply Du; eauto.
      * intros b I. rewrite P.
        destruct (Nat.eqb_spec b w) as [->|].
        { apply in_app_or in I. destruct I as [I|[->|[]]]; [contradiction|].
          exfalso. destruct (Du w (or_introl eq_refl)) as (? & ? & ?). congruence. }
        destruct (Nat.eqb_spec b a) as [->|]; [|reflexivity].
        apply in_app_or in I. destruct I as [I|[->|[]]]; [exfalso; apply Da; right; exact I|].
        exfalso. destruct (Du a (or_introl eq_refl)) as (? & ? & ?). congruence.
      * intros b I. rewrite B. destruct (Nat.eqb_spec b a) as [->|]; [exfalso; apply Da; right; exact I|reflexivity].
  - cbn [sl_end]. rewrite B. destruct (Nat.eqb_spec e a) as [->|]; [|exact O].
    exfalso. destruct (Du a (or_introl eq_refl)) as (? & ? & ?). congruence.
Qed.

Lemma lrep_insert_end (h h' : heap) e u v a :
  lrep h (SL e u) -> ~ In a (poss (SL e u)) ->
  ins_views h h' e (last (keys u) e) v a ->
  lrep h' (SL e (u ++ [(a, v)])).
Proof.
  intros (S & D & O) F [N P B]. unfold poss in *. cbn [sl_end sl_elems] in *.
  assert (Du : forall b, In b (e :: keys u) -> b <> a) by (intros b I ->; contradiction).
  assert (Le : In (last (keys u) e) (e :: keys u)).
  { clear. destruct (keys u) as [|c r] using rev_ind; [left; reflexivity|].
    rewrite last_snoc. right. apply in_or_app. cbn; auto. }
  inversion D as [|? ? De Dk]; subst.
  split; [|split].
  - cbn [sl_end sl_elems]. apply seg_app. split; [|split].
    + eapply seg_relink; [exact S|exact D| | | | |].
      * intros b I Nb. rewrite N. pose proof (Du b I).
        destruct (Nat.eqb_spec b a); [contradiction|]. destruct (Nat.eqb_spec b (last (keys u) e)); [contradiction|reflexivity].
      * intros b I. rewrite P. destruct (Nat.eqb_spec b e) as [->|]; [contradiction|].
        destruct (Nat.eqb_spec b a) as [->|]; [exfalso; apply F; right; exact I|reflexivity].
      * intros b I. rewrite B. destruct (Nat.eqb_spec b a) as [->|]; [exfalso; apply F; right; exact I|reflexivity].
      * rewrite N. pose proof (Du _ Le). destruct (Nat.eqb_spec (last (keys u) e) a); [contradiction|].
        rewrite Nat.eqb_refl. reflexivity.
      * rewrite P. destruct (Nat.eqb_spec a e) as [->|]; [exfalso; apply F; left; reflexivity|].
        rewrite Nat.eqb_refl. reflexivity.
    + rewrite B, Nat.eqb_refl. reflexivity.
    + cbn [seg]. split; [rewrite N, Nat.eqb_refl; reflexivity|rewrite P, Nat.eqb_refl; reflexivity].
  - unfold poss. cbn [sl_end sl_elems]. rewrite map_app. cbn [map fst].
    rewrite app_comm_cons. apply NoDup_Add with (a := a) (l := e :: keys u); [|auto].
    pose proof (Add_app a (e :: keys u) []) as G. rewrite app_nil_r in G. exact G.
  - cbn [sl_end]. rewrite B. destruct (Nat.eqb_spec e a) as [->|]; [exfalso; apply F; left; reflexivity|exact O].
Qed.

Lemma lrep_erase (h h' : heap) e u w x z :
  lrep h (SL e (u ++ (w, x) :: z)) ->
  era_views h h' w (last (keys u) e) (match z with [] => e | (q, _) :: _ => q end) ->
  lrep h' (SL e (u ++ z)).
Proof.
  intros (S & D & O) [N P B]. unfold poss in *. cbn [sl_end sl_elems] in *.
  rewrite map_app, app_comm_cons in D. cbn [map fst] in D.
  pose proof (NoDup_remove_1 _ _ _ D) as D'. pose proof (NoDup_remove_2 _ _ _ D) as Dw.
  assert (Wu : forall b, In b (e :: keys u) -> b <> w).
  { intros b I ->. apply Dw, in_or_app. auto. }
  assert (Wz : forall b, In b (keys z) -> b <> w).
  { intros b I ->. apply Dw, in_or_app. auto. }
  assert (Uz : forall b, In b (e :: keys u) -> ~ In b (keys z)).
  { clear - D'. induction (e :: keys u) as [|d r IH]; intros b I Z; [destruct I|].
    cbn in D'. inversion D'; subst. destruct I as [->|I]; [apply H1, in_or_app; auto|eapply IH; eauto]. }
  assert (Dk : NoDup (e :: keys u)) by (eapply nodup_app_l; exact D').
  apply seg_app in S. destruct S as (S1 & S2 & S3).
  assert (Le : In (last (keys u) e) (e :: keys u)).
  { clear. destruct (keys u) as [|c r] using rev_ind; [left; reflexivity|].
    rewrite last_snoc. right. apply in_or_app. cbn; auto. }
  pose proof (Wu _ Le) as Lw.
  split; [|split].
  - cbn [sl_end sl_elems].
    assert (G : forall q, (q = e \/ In q (keys z)) -> q = match z with [] => e | (q, _) :: _ => q end ->
                  seg h' e u q).
    { intros q Hq Eq. eapply seg_relink; [exact S1|exact Dk| | | | |].
      - intros b I Nb. rewrite N. pose proof (Wu b I). destruct (Nat.eqb_spec b w); [contradiction|].
        destruct (Nat.eqb_spec b (last (keys u) e)); [contradiction|reflexivity].
      - intros b I. rewrite P. pose proof (Wu b (or_intror I)). destruct (Nat.eqb_spec b w); [contradiction|].
        rewrite <- Eq. destruct (Nat.eqb_spec b q) as [->|]; [|reflexivity].
        destruct Hq as [->|Hq].
        + inversion Dk; contradiction.
        + exfalso. eapply Uz; [right; exact I|exact Hq].
      - intros b I. rewrite B. pose proof (Wu b (or_intror I)). destruct (Nat.eqb_spec b w); [contradiction|reflexivity].
      - rewrite N. destruct (Nat.eqb_spec (last (keys u) e) w); [contradiction|]. rewrite Nat.eqb_refl. congruence.
      - rewrite P, <- Eq, Nat.eqb_refl. destruct (Nat.eqb_spec q w) as [->|]; [|reflexivity].
        exfalso. destruct Hq as [Hq|Hq]; [apply (Wu w); [left; auto|reflexivity]|apply (Wz w Hq); reflexivity]. }
    destruct z as [|[q y] z].
    + rewrite app_nil_r. apply G; auto.
    + cbn [seg] in S3. destruct S3 as (S31 & S32 & S33 & S34). cbn [map fst] in *.
      assert (Dqz : NoDup (q :: keys z)) by (eapply nodup_app_r; exact D').
      inversion Dqz as [|? ? Dq Dz]; subst.
      apply seg_app. split; [|split].
      * apply G; cbn; auto.
      * rewrite B. destruct (Nat.eqb_spec q w) as [->|]; [|exact S33]. exfalso. apply (Wz w); cbn; auto.
      * eapply seg_ext; [| | |exact S34].
        -- intros b I. rewrite N. destruct (Nat.eqb_spec b w) as [->|]; [exfalso; apply (Wz w I); reflexivity|].
           destruct (Nat.eqb_spec b (last (keys u) e)) as [->|]; [|reflexivity].
           exfalso. eapply Uz; [exact Le|exact I].
        -- intros b I. rewrite P. apply in_app_or in I.
           assert (b <> w). { destruct I as [I|[->|[]]]; [apply Wz; right; exact I|apply Wu; left; reflexivity]. }
           destruct (Nat.eqb_spec b w); [contradiction|].
           destruct (Nat.eqb_spec b q) as [->|]; [|reflexivity].
           destruct I as [I|[->|[]]]; [contradiction|]. exfalso. apply (Uz q); cbn; auto.
        -- intros b I. rewrite B. destruct (Nat.eqb_spec b w) as [->|]; [|reflexivity].
           exfalso. apply (Wz w); cbn; auto.
  - unfold poss. cbn [sl_end sl_elems]. rewrite map_app, app_comm_cons. exact D'.
  - cbn [sl_end]. rewrite B. destruct (Nat.eqb_spec e w) as [->|]; [|exact O].
    exfalso. apply (Wu w); cbn; auto.
Qed.
End ListProofs.
