(** List lemmas for the SourceHook proofs. *)
From Coq Require Import List Bool Arith ZArith Lia Sorted Permutation.
From Verif Require Import ProtoModel ShModel.
Import ListNotations.
Local Open Scope nat_scope.

(** [p] selects the elements with key [k] *)
Definition selects {A K} (p : A -> bool) (key : A -> K) (k : K) : Prop :=
  forall x, p x = true <-> key x = k.

Lemma sel_false : forall {A K} (p : A -> bool) (key : A -> K) k x,
  selects p key k -> (p x = false <-> key x <> k).
Proof.
  intros A K p key k x H. rewrite <- (H x). destruct (p x); split; intros; congruence.
Qed.

Lemma sel_man_is : forall o, selects (man_is o) mn_obj o.
Proof. intros o x. unfold man_is. apply Nat.eqb_eq. Qed.
Lemma sel_man_key : forall p f, selects (man_key p f) (fun m => (mn_plug m, mn_pf m)) (p, f).
Proof.
  intros p f x. unfold man_key. rewrite andb_true_iff, !Z.eqb_eq. split.
  - intros [-> ->]. reflexivity.
  - intros H. injection H. auto.
Qed.
Lemma sel_vfn_is : forall o, selects (vfn_is o) vf_obj o.
Proof. intros o x. unfold vfn_is. apply Nat.eqb_eq. Qed.
Lemma sel_vfn_at : forall o, selects (vfn_at o) vf_ptr o.
Proof. intros o x. unfold vfn_at. apply Z.eqb_eq. Qed.
Lemma sel_iface_at : forall o, selects (iface_at o) if_ptr o.
Proof. intros o x. unfold iface_at. apply Z.eqb_eq. Qed.
Lemma sel_iface_obj : forall o, selects (fun i => if_obj i =? o) if_obj o.
Proof. intros o x. apply Nat.eqb_eq. Qed.
Lemma sel_hook_id : forall o, selects (hook_id_is o) hk_id o.
Proof. intros o x. unfold hook_id_is. apply Z.eqb_eq. Qed.

Lemma nodup_key_inj : forall {A K} (key : A -> K) l x y,
  NoDup (map key l) -> In x l -> In y l -> key x = key y -> x = y.
Proof.
  intros A K key l x y. induction l as [|a l IH]; cbn [map]; intros H Hx Hy E.
  - destruct Hx.
  - inversion H as [|? ? Hn Hnd]; subst.
    destruct Hx as [->|Hx], Hy as [->|Hy]; auto.
    + exfalso. apply Hn. rewrite E. apply in_map. auto.
    + exfalso. apply Hn. rewrite <- E. apply in_map. auto.
Qed.

Lemma find_key : forall {A K} (p : A -> bool) (key : A -> K) k l x,
  selects p key k -> NoDup (map key l) ->
  (find p l = Some x <-> In x l /\ key x = k).
Proof.
  intros A K p key k l x S N. split.
  - intros H. apply find_some in H. destruct H as [H1 H2]. split; auto. apply S. auto.
  - intros [H1 H2]. destruct (find p l) eqn:E.
    + apply find_some in E. destruct E as [E1 E2]. apply S in E2.
      f_equal. eapply nodup_key_inj; eauto. congruence.
    + pose proof (find_none p l E x H1) as H. apply S in H2. congruence.
Qed.

Lemma find_key_in : forall {A K} (p : A -> bool) (key : A -> K) k l x,
  selects p key k -> find p l = Some x -> In x l /\ key x = k.
Proof.
  intros A K p key k l x S H. apply find_some in H. destruct H as [H1 H2]. split; auto. apply S. auto.
Qed.

Lemma find_key_none : forall {A K} (p : A -> bool) (key : A -> K) k l,
  selects p key k -> (find p l = None <-> forall x, In x l -> key x <> k).
Proof.
  intros A K p key k l S. split.
  - intros H x Hx. apply (sel_false p key k x S). apply (find_none p l H x Hx).
  - intros H. destruct (find p l) eqn:E; auto.
    apply find_some in E. destruct E as [E1 E2]. apply S in E2. exfalso. eapply H; eauto.
Qed.

Lemma in_upd_first : forall {A K} (p : A -> bool) (key : A -> K) k f l y,
  selects p key k -> NoDup (map key l) ->
  (In y (upd_first p f l) <-> (In y l /\ key y <> k) \/ (exists x, In x l /\ key x = k /\ y = f x)).
Proof.
  intros A K p key k f l y S. induction l as [|a l IH]; cbn [map upd_first]; intros N.
  - split; [intros []|]. intros [[[] _]|(x & [] & _)].
  - inversion N as [|? ? Hn Hnd]; subst. destruct (p a) eqn:E.
    + apply S in E. subst k. cbn [In]. split.
      * intros [<-|H]. { right. exists a. auto. }
        left. split; auto. intros C. apply Hn. rewrite <- C. apply in_map. auto.
      * intros [[[<-|H] H2]|(x & [->|H] & H1 & H2)]; auto; try congruence.
        exfalso. apply Hn. rewrite <- H1. apply in_map. auto.
    + apply (sel_false p key k a S) in E. cbn [In]. rewrite (IH Hnd). split.
      * intros [<-|[[H1 H2]|(x & H1 & H2 & H3)]].
        { left. auto. } { left. auto. } right. exists x. auto.
      * intros [[[<-|H] H2]|(x & [->|H] & H1 & H2)]; auto.
        { congruence. } right. right. exists x. auto.
Qed.

Lemma in_del_first : forall {A K} (p : A -> bool) (key : A -> K) k l y,
  selects p key k -> NoDup (map key l) ->
  (In y (del_first p l) <-> In y l /\ key y <> k).
Proof.
  intros A K p key k l y S. induction l as [|a l IH]; cbn [map del_first]; intros N.
  - split; [intros []|intros [[] _]].
  - inversion N as [|? ? Hn Hnd]; subst. destruct (p a) eqn:E.
    + apply S in E. subst k. cbn [In]. split.
      * intros H. split; auto. intros C. apply Hn. rewrite <- C. apply in_map. auto.
      * intros [[<-|H] H2]; auto. congruence.
    + apply (sel_false p key k a S) in E. cbn [In]. rewrite (IH Hnd). split.
      * intros [<-|[H1 H2]]; auto.
      * intros [[<-|H] H2]; auto.
Qed.

Lemma in_del_first_weak : forall {A} (p : A -> bool) l y, In y (del_first p l) -> In y l.
Proof.
  intros A p l y. induction l as [|a l IH]; cbn [del_first]; auto.
  destruct (p a); cbn [In]; tauto.
Qed.

Lemma map_upd_first_same : forall {A B} (g : A -> B) p f l,
  (forall x, In x l -> p x = true -> g (f x) = g x) -> map g (upd_first p f l) = map g l.
Proof.
  intros A B g p f l. induction l as [|a l IH]; cbn [map upd_first]; intros H; auto.
  destruct (p a) eqn:E; cbn [map].
  - rewrite H; cbn [In]; auto.
  - rewrite IH; auto. intros x Hx. apply H. cbn [In]. auto.
Qed.

Lemma map_upd_first : forall {A B} (g : A -> B) p q f f' l,
  (forall x, p x = q (g x)) -> (forall x, In x l -> p x = true -> g (f x) = f' (g x)) ->
  map g (upd_first p f l) = upd_first q f' (map g l).
Proof.
  intros A B g p q f f' l Hp. induction l as [|a l IH]; cbn [map upd_first]; intros H; auto.
  rewrite <- (Hp a). destruct (p a) eqn:E; cbn [map].
  - rewrite H; cbn [In]; auto.
  - rewrite IH; auto. intros x Hx. apply H. cbn [In]. auto.
Qed.

Lemma map_del_first : forall {A B} (g : A -> B) p q l,
  (forall x, p x = q (g x)) -> map g (del_first p l) = del_first q (map g l).
Proof.
  intros A B g p q l Hp. induction l as [|a l IH]; cbn [map del_first]; auto.
  rewrite <- (Hp a). destruct (p a); cbn [map]; congruence.
Qed.

Lemma upd_first_none : forall {A} (p : A -> bool) f l,
  (forall x, In x l -> p x = false) -> upd_first p f l = l.
Proof.
  intros A p f l. induction l as [|a l IH]; cbn [upd_first]; intros H; auto.
  rewrite (H a); cbn [In]; auto. rewrite IH; auto. intros x Hx. apply H. cbn [In]; auto.
Qed.

Lemma del_first_none : forall {A} (p : A -> bool) l,
  (forall x, In x l -> p x = false) -> del_first p l = l.
Proof.
  intros A p l. induction l as [|a l IH]; cbn [del_first]; intros H; auto.
  rewrite (H a); cbn [In]; auto. rewrite IH; auto. intros x Hx. apply H. cbn [In]; auto.
Qed.

Lemma nodup_del_first : forall {A B} (g : A -> B) p l, NoDup (map g l) -> NoDup (map g (del_first p l)).
Proof.
  intros A B g p l. induction l as [|a l IH]; cbn [map del_first]; intros H; auto.
  inversion H; subst. destruct (p a); auto. cbn [map]. constructor; auto.
  intros C. apply in_map_iff in C. destruct C as (x & E & Hx).
  apply in_del_first_weak in Hx. apply H2. rewrite <- E. apply in_map. auto.
Qed.

Lemma nodup_del_first_id : forall {A} p (l : list A), NoDup l -> NoDup (del_first p l).
Proof.
  intros A p l H. pose proof (nodup_del_first (fun x : A => x) p l) as G. rewrite !map_id in G. auto.
Qed.

Lemma in_del_nat : forall n l x, NoDup l -> (In x (del_first (Nat.eqb n) l) <-> In x l /\ x <> n).
Proof.
  intros n l x N. apply (in_del_first (Nat.eqb n) (fun x => x) n l x).
  - intros y. rewrite Nat.eqb_eq. split; auto.
  - rewrite map_id. auto.
Qed.

Lemma memb_in : forall n l, memb n l = true <-> In n l.
Proof.
  intros n l. unfold memb. rewrite existsb_exists. split.
  - intros (x & H & E). apply Nat.eqb_eq in E. subst. auto.
  - intros H. exists n. split; auto. apply Nat.eqb_refl.
Qed.
Lemma memb_false : forall n l, memb n l = false <-> ~ In n l.
Proof. intros n l. rewrite <- memb_in. destruct (memb n l); split; congruence. Qed.

Lemma nodup_app : forall {A} (l1 l2 : list A),
  NoDup (l1 ++ l2) <-> NoDup l1 /\ NoDup l2 /\ (forall x, In x l1 -> In x l2 -> False).
Proof.
  intros A l1 l2. induction l1 as [|a l1 IH]; cbn [app].
  - split; [intros H; repeat split; auto; constructor|tauto].
  - split.
    + intros H. inversion H as [|? ? Hn Hd]; subst. apply IH in Hd. destruct Hd as (H1 & H2 & H3).
      rewrite in_app_iff in Hn. split; [constructor; tauto|]. split; auto.
      intros x [->|Hx] Hx2; eauto.
    + intros (H1 & H2 & H3). inversion H1 as [|? ? Hn Hd]; subst. constructor.
      * rewrite in_app_iff. intros [C|C]; [auto|]. apply (H3 a); cbn [In]; auto.
      * apply IH. split; auto. split; auto. intros x Hx. apply H3. cbn [In]. auto.
Qed.

Lemma nodup_snoc : forall {A} (l : list A) x, NoDup l -> ~ In x l -> NoDup (l ++ [x]).
Proof.
  intros A l x H1 H2. apply nodup_app. split; auto. split.
  - constructor; auto. constructor.
  - intros y Hy [->|[]]. auto.
Qed.

Lemma sorted_snoc : forall {A} (R : A -> A -> Prop) l x,
  StronglySorted R l -> (forall y, In y l -> R y x) -> StronglySorted R (l ++ [x]).
Proof.
  intros A R l x H. induction H as [|a l Hs IH Hf]; cbn [app]; intros G.
  - constructor; constructor.
  - constructor.
    + apply IH. intros y Hy. apply G. cbn [In]. auto.
    + apply Forall_app. split; auto. constructor; [|constructor]. apply G. cbn [In]. auto.
Qed.

Lemma sorted_del_first : forall {A B} (g : A -> B) (R : B -> B -> Prop) p l,
  StronglySorted R (map g l) -> StronglySorted R (map g (del_first p l)).
Proof.
  intros A B g R p l. induction l as [|a l IH]; cbn [map del_first]; intros H; auto.
  apply StronglySorted_inv in H. destruct H as [H1 H2].
  destruct (p a); auto. cbn [map]. constructor; auto.
  rewrite Forall_forall in *. intros y Hy. apply H2.
  apply in_map_iff in Hy. destruct Hy as (x & <- & Hx). apply in_map.
  eapply in_del_first_weak; eauto.
Qed.

Lemma sorted_lt_nodup : forall l, StronglySorted lt l -> NoDup l.
Proof.
  intros l H. induction H as [|a l Hs IH Hf]; constructor; auto.
  intros C. rewrite Forall_forall in Hf. specialize (Hf a C). lia.
Qed.

Lemma upd_nth_length : forall {A} n (f : A -> A) l, length (upd_nth n f l) = length l.
Proof.
  intros A n f l. revert n. induction l as [|a l IH]; intros [|n]; cbn [upd_nth length]; auto.
Qed.

Lemma nth_error_upd_nth : forall {A} n (f : A -> A) l m,
  nth_error (upd_nth n f l) m = if n =? m then option_map f (nth_error l m) else nth_error l m.
Proof.
  intros A n f l. revert n. induction l as [|a l IH]; intros n m.
  - destruct n, m; cbn; try reflexivity. destruct (n =? m); reflexivity.
  - destruct n, m; cbn [upd_nth nth_error]; try reflexivity. rewrite IH. reflexivity.
Qed.

Lemma map_upd_first_find : forall {A B} (g : A -> B) p f l x,
  find p l = Some x -> g (f x) = g x -> map g (upd_first p f l) = map g l.
Proof.
  intros A B g p f l x. induction l as [|a l IH]; cbn [find upd_first map]; intros H E; [discriminate|].
  destruct (p a); cbn [map].
  - injection H as ->. congruence.
  - rewrite IH; auto.
Qed.
