(** THash refines finite maps. *)
From Coq Require Import List ZArith Bool Arith Lia Permutation.
From Verif Require Import Seq ListModel VecProofs HashModel HashSpec.
Import ListNotations.
Local Open Scope Z_scope.

Lemma upd_split {A} (l1 l2 : list A) b x i : length l1 = i -> upd (l1 ++ b :: l2) i x = l1 ++ x :: l2.
Proof.
  revert i. induction l1 as [|a l1 IH]; intros i E; subst i; cbn [upd length app]; [reflexivity|].
  rewrite IH by reflexivity. reflexivity.
Qed.

Lemma nth_split_at {A} (l1 l2 : list A) b i : length l1 = i -> nth_error (l1 ++ b :: l2) i = Some b.
Proof. intros <-. rewrite nth_error_app2 by lia. rewrite Nat.sub_diag. reflexivity. Qed.

Lemma nth_other {A} (l1 l2 : list A) b x i j : length l1 = i -> j <> i ->
  nth_error (l1 ++ x :: l2) j = nth_error (l1 ++ b :: l2) j.
Proof.
  intros E N. destruct (Nat.lt_ge_cases j i).
  - rewrite !nth_error_app1 by lia. reflexivity.
  - rewrite !nth_error_app2 by lia. rewrite E. destruct (j - i)%nat eqn:D; [lia|]. reflexivity.
Qed.

Definition ids_in (bs : list (option (list nat))) : list nat := concat (map bucket_ids bs).
Lemma ids_app a b : ids_in (a ++ b) = ids_in a ++ ids_in b.
Proof. unfold ids_in. rewrite map_app, concat_app. reflexivity. Qed.
Lemma ids_cons b bs : ids_in (b :: bs) = bucket_ids b ++ ids_in bs.
Proof. reflexivity. Qed.
Lemma ids_repeat n : ids_in (repeat None n) = [].
Proof. induction n; cbn; auto. Qed.
Lemma in_ids bs id : In id (ids_in bs) <-> exists i b, nth_error bs i = Some b /\ In id (bucket_ids b).
Proof.
  unfold ids_in. rewrite in_concat. split.
  - intros (x & Ix & Iid). apply in_map_iff in Ix. destruct Ix as (b & <- & Ib).
    apply In_nth_error in Ib. destruct Ib as [i E]. eauto.
  - intros (i & b & E & I). exists (bucket_ids b). split; [|exact I]. apply in_map. eapply nth_error_In; eauto.
Qed.

Section Hash.
Context {K V U : Type}.
Variable hash : K -> Z.
Variable cmp : K -> K -> Z.
Variable conv : U -> K.
Variable hash_alt : U -> Z.
Variable cmp_alt : U -> K -> Z.
Variable eq_alt : K -> U -> bool.
Variable dflt : V.
Variable full : Z -> Z -> bool.
Variable alloc : @nheap K V -> nat.
Hypothesis KO : key_ok conv hash cmp hash_alt cmp_alt eq_alt.
Hypothesis Alloc : nallocator alloc.
Implicit Types (h : @nheap K V) (t : table) (m : @fmap K V).

Lemma nset_eq h k x : nset h k x k = x.
Proof. apply mset_eq. Qed.
Lemma nset_ne h k x j : j <> k -> nset h k x j = h j.
Proof. apply mset_ne. Qed.
Lemma nbounded_nset h k x : nbounded h -> nbounded (nset h k x).
Proof. intros B b L. cbn in L. rewrite nset_ne by lia. apply B. lia. Qed.

Lemma place_ok x n : 0 < n -> exists p, place x n = Some p /\ (p < Z.to_nat n)%nat.
Proof.
  intros P. unfold place. destruct (Z.eqb_spec n 0); [lia|]. eexists. split; [reflexivity|].
  pose proof (Z.mod_pos_bound (x mod 2 ^ 64) n P). lia.
Qed.

(** Every node is in the bucket its key belongs to. *)
Definition placed h (n : Z) (bs : list (option (list nat))) : Prop :=
  forall i b id, nth_error bs i = Some b -> In id (bucket_ids b) ->
    exists k v, h id = Some (k, v) /\ place (hash k) n = Some i.

Record twf h t : Prop := Twf {
  tw_num : 0 < num t;
  tw_nodup : NoDup (ids_of t);
  tw_placed : placed h (num t) (t_buckets t);
  tw_keys : forall a b k v w, In a (ids_of t) -> In b (ids_of t) -> h a = Some (k, v) -> h b = Some (k, w) -> a = b }.

Definition holds_map h t m : Prop := forall k v, m k = Some v <-> exists id, In id (ids_of t) /\ h id = Some (k, v).
Definition rep h t m : Prop := twf h t /\ holds_map h t m.

Lemma twf_alloc h t id : twf h t -> In id (ids_of t) -> h id <> None.
Proof.
  intros W I. apply in_ids in I. destruct I as (i & b & E & I). destruct (tw_placed _ _ W i b id E I) as (k & v & -> & _). discriminate.
Qed.

(** Heaps *)
Record nframe h (a : list nat) h' (a' : list nat) : Prop := NFrame {
  nf_old : forall x, ~ In x a -> h x <> None -> h' x = h x;
  nf_new : forall x, ~ In x a' -> h' x <> None -> h x <> None /\ ~ In x a;
  nf_own : forall x, In x a' -> In x a \/ h x = None;
  nf_bnd : nbounded h -> nbounded h' }.

Lemma nframe_perm h a a' : (forall x, In x a' <-> In x a) -> nframe h a h a'.
Proof. intros P. split; auto; intros x; rewrite P; auto. Qed.
Lemma nframe_refl h a : nframe h a h a.
Proof. apply nframe_perm. tauto. Qed.

Lemma nframe_trans h a h1 a1 h2 a2 : nframe h a h1 a1 -> nframe h1 a1 h2 a2 -> nframe h a h2 a2.
Proof.
  intros [A1 B1 C1 D1] [A2 B2 C2 D2]. split.
  - intros x N H. assert (E1 : h1 x = h x) by auto. rewrite <- E1. apply A2.
    + intros I. destruct (C1 x I); [contradiction|congruence].
    + congruence.
  - intros x N H. destruct (B2 x N H) as [H1 N1]. auto.
  - intros x I. destruct (C2 x I) as [I1|E]; [auto|].
    destruct (in_dec Nat.eq_dec x a) as [|N]; [auto|]. right.
    destruct (h x) eqn:Ea; [|reflexivity]. rewrite <- Ea, <- (A1 x N); [exact E|congruence].
  - auto.
Qed.

(** Moving nodes into new buckets *)
Lemma placed_upd h n bs i b l : placed h n bs -> nth_error bs i = Some b ->
  (forall id, In id l -> exists k v, h id = Some (k, v) /\ place (hash k) n = Some i) ->
  placed h n (upd bs i (Some l)).
Proof.
  intros P E H j c id Ej I. destruct (nth_error_split bs i E) as (l1 & l2 & -> & L).
  rewrite upd_split in Ej by exact L. destruct (Nat.eq_dec j i) as [->|N].
  - rewrite nth_split_at in Ej by exact L. injection Ej as <-. auto.
  - rewrite (nth_other l1 l2 b (Some l) i j L N) in Ej. eapply P; eauto.
Qed.

Lemma ids_upd bs i b l l' : nth_error bs i = Some b -> Permutation l (l' ++ bucket_ids b) ->
  Permutation (ids_in (upd bs i (Some l))) (l' ++ ids_in bs).
Proof.
  intros E P. destruct (nth_error_split bs i E) as (l1 & l2 & -> & L). rewrite upd_split by exact L.
  rewrite !ids_app, !ids_cons. cbn [bucket_ids]. rewrite P, app_assoc, app_assoc.
  rewrite (Permutation_app_comm (ids_in l1) l'). rewrite <- !app_assoc. reflexivity.
Qed.

Lemma upd_length {A} (l : list A) i x : length (upd l i x) = length l.
Proof. revert i. induction l as [|a l IH]; intros [|i]; cbn; auto. Qed.

Lemma move_ok h n ids : 0 < n -> (forall id, In id ids -> h id <> None) -> forall t,
  length (t_buckets t) = Z.to_nat n -> placed h n (t_buckets t) ->
  exists t', move_nodes hash h n ids t = Some t' /\ length (t_buckets t') = Z.to_nat n /\
    placed h n (t_buckets t') /\ Permutation (ids_of t') (ids ++ ids_of t).
Proof.
  intros Pn. induction ids as [|id ids IH]; intros H t L P.
  - exists t. cbn. auto.
  - cbn [move_nodes]. destruct (h id) as [[k v]|] eqn:E; [|exfalso; apply (H id); [left; reflexivity|exact E]].
    cbn [fst]. destruct (place_ok (hash k) n Pn) as (p & Ep & Lp). rewrite Ep.
    destruct (nth_error (t_buckets t) p) as [b|] eqn:Eb; [|apply nth_error_None in Eb; lia].
    assert (S : forall u, exists t', move_nodes hash h n ids (Table (upd (t_buckets t) p (Some (bucket_ids b ++ [id]))) u) = Some t' /\
       length (t_buckets t') = Z.to_nat n /\ placed h n (t_buckets t') /\ Permutation (ids_of t') ((id :: ids) ++ ids_of t)).
    { intros u. destruct (IH (fun x I => H x (or_intror I)) (Table (upd (t_buckets t) p (Some (bucket_ids b ++ [id]))) u))
        as (t' & -> & L' & P' & Q).
      - cbn. rewrite upd_length. exact L.
      - cbn. apply placed_upd with (b := b); auto. intros x I. apply in_app_iff in I. destruct I as [I|[<-|[]]].
        + eapply P; eauto.
        + eauto.
      - exists t'. do 3 (split; auto). rewrite Q. unfold ids_of at 1. cbn [t_buckets]. fold (ids_in (upd (t_buckets t) p (Some (bucket_ids b ++ [id])))).
        rewrite (ids_upd (t_buckets t) p b _ [id] Eb) by apply Permutation_app_comm. rewrite app_assoc.
        rewrite (Permutation_app_comm ids [id]). reflexivity. }
    destruct b; apply S.
Qed.

Lemma twf_perm h t t' : twf h t -> 0 < num t' -> placed h (num t') (t_buckets t') ->
  Permutation (ids_of t') (ids_of t) -> twf h t'.
Proof.
  intros W N P Q. split; auto.
  - apply (Permutation_NoDup (Permutation_sym Q)), (tw_nodup _ _ W).
  - intros a b k v w Ia Ib. apply (tw_keys _ _ W); eapply Permutation_in; eauto.
Qed.

Lemma holds_perm h t t' m : holds_map h t m -> Permutation (ids_of t') (ids_of t) -> holds_map h t' m.
Proof.
  intros H Q k v. rewrite (H k v). split; intros (id & I & E); exists id; split; auto.
  - apply (Permutation_in _ (Permutation_sym Q)), I.
  - apply (Permutation_in _ Q), I.
Qed.

Lemma placed_empty h n len : placed h n (repeat None len).
Proof.
  intros i b id E I. apply nth_error_In, repeat_spec in E. subst b. destruct I.
Qed.

Lemma refactor_ok h t m : rep h t m ->
  exists t', refactor hash h t = Some t' /\ rep h t' m /\ Permutation (ids_of t') (ids_of t).
Proof.
  intros [W H]. unfold refactor. pose proof (tw_num _ _ W) as N. destruct (Z.eqb_spec (num t) 0); [lia|].
  destruct (move_ok h (num t * 2) (ids_of t)) with (t := Table (repeat None (Z.to_nat (num t * 2))) 0)
    as (t' & -> & L & P & Q); [lia|intros id; apply twf_alloc, W|apply repeat_length|apply placed_empty|].
  assert (Q' : Permutation (ids_of t') (ids_of t)).
  { rewrite Q. unfold ids_of at 2. cbn [t_buckets]. fold (ids_in (repeat None (Z.to_nat (num t * 2)))).
    rewrite ids_repeat, app_nil_r. reflexivity. }
  exists t'. split; [reflexivity|]. split; [|exact Q']. split; [|eapply holds_perm; eauto].
  assert (Nt : num t' = num t * 2) by (unfold num in *; lia).
  eapply twf_perm; eauto; [lia|rewrite Nt; exact P].
Qed.

Definition empty_map : @fmap K V := fun _ => None.
Lemma rep_empty h n u : (0 < n)%nat -> rep h (Table (repeat None n) u) empty_map.
Proof.
  intros P. assert (E : ids_of (Table (repeat None n) u) = []) by apply ids_repeat. split.
  - split.
    + unfold num. cbn. rewrite repeat_length. lia.
    + rewrite E. constructor.
    + apply placed_empty.
    + rewrite E. intros a b k v w [].
  - intros k v. rewrite E. split; [discriminate|]. intros (id & [] & _).
Qed.

Lemma rep_ext h t m m' : rep h t m -> (forall k, m' k = m k) -> rep h t m'.
Proof. intros [W H] E. split; auto. intros k v. rewrite E. apply H. Qed.

(** Looking for a key in a bucket *)
Lemma search_ok h test l : (forall id, In id l -> h id <> None) ->
  (exists id k v, search h test l = Some (Some id) /\ In id l /\ h id = Some (k, v) /\ test k = true) \/
  (search h test l = Some None /\ forall id k v, In id l -> h id = Some (k, v) -> test k = false).
Proof.
  induction l as [|id l IH]; intros A; cbn [search].
  - right. split; auto. intros id k v [].
  - destruct (h id) as [[k v]|] eqn:E; [|exfalso; apply (A id); [left; auto|exact E]]. cbn [fst].
    destruct (test k) eqn:T.
    + left. exists id, k, v. repeat split; auto. left; auto.
    + destruct (IH (fun x I => A x (or_intror I))) as [(j & k' & v' & -> & I & Ej & Tj)|[-> F]].
      * left. exists j, k', v'. repeat split; auto. right; auto.
      * right. split; auto. intros j k' v' [<-|I] Ej; [congruence|eauto].
Qed.

Definition putm m (k : K) (x : option V) : @fmap K V := fun k' => if cmp k' k =? 0 then x else m k'.
Lemma putm_eq m k x : putm m k x k = x.
Proof. unfold putm. rewrite (proj2 (ko_cmp _ _ _ _ _ _ KO k k) eq_refl). reflexivity. Qed.
Lemma putm_ne m k x k' : k' <> k -> putm m k x k' = m k'.
Proof. intros N. unfold putm. destruct (Z.eqb_spec (cmp k' k) 0) as [E|]; auto. apply (ko_cmp _ _ _ _ _ _ KO) in E. contradiction. Qed.
Lemma key_dec (a b : K) : {a = b} + {a <> b}.
Proof.
  destruct (Z.eq_dec (cmp a b) 0) as [E|E].
  - left. apply (ko_cmp _ _ _ _ _ _ KO), E.
  - right. intros F. apply E, (ko_cmp _ _ _ _ _ _ KO), F.
Qed.
Lemma bound_putm m k x : bound m k x (putm m k x).
Proof. split; [apply putm_eq|apply putm_ne]. Qed.

Lemma rep_same h h' t m : rep h t m -> (forall id, In id (ids_of t) -> h' id = h id) -> rep h' t m.
Proof.
  intros [W H] S. split.
  - split; [apply W|apply W| |].
    + intros i b id E I. destruct (tw_placed _ _ W i b id E I) as (k & v & Ek & P). exists k, v. rewrite S; auto.
      apply in_ids. eauto.
    + intros a b k v w Ia Ib. rewrite !S by auto. apply (tw_keys _ _ W); auto.
  - intros k v. rewrite (H k v). split; intros (id & I & E); exists id; split; auto; [rewrite S|rewrite <- S]; auto.
Qed.

Lemma insert_rep h t m key p b id u : rep h t m -> h id = None -> m key = None ->
  place (hash key) (num t) = Some p -> nth_error (t_buckets t) p = Some b ->
  let t' := Table (upd (t_buckets t) p (Some (bucket_ids b ++ [id]))) u in
  rep (nset h id (Some (key, dflt))) t' (putm m key (Some dflt)) /\ Permutation (ids_of t') (id :: ids_of t).
Proof.
  intros [W H] Fr Em Ep Eb t'.
  assert (Q : Permutation (ids_of t') (id :: ids_of t)).
  { apply (ids_upd (t_buckets t) p b _ [id] Eb). apply Permutation_app_comm. }
  assert (Nin : ~ In id (ids_of t)) by (intros I; apply (twf_alloc h t id W I), Fr).
  assert (Ne : forall j, In j (ids_of t) -> nset h id (Some (key, dflt)) j = h j).
  { intros j I. apply nset_ne. intros ->. contradiction. }
  assert (Num : num t' = num t) by (unfold num, t'; cbn [t_buckets]; rewrite upd_length; reflexivity).
  split; [|exact Q]. split.
  - split.
    + rewrite Num. apply W.
    + apply (Permutation_NoDup (Permutation_sym Q)). constructor; [exact Nin|apply W].
    + rewrite Num. unfold t'. cbn [t_buckets].
      assert (P' : placed (nset h id (Some (key, dflt))) (num t) (t_buckets t)).
      { intros i c j E I. destruct (tw_placed _ _ W i c j E I) as (k & v & Ek & Pk). exists k, v. split; auto.
        rewrite Ne; auto. apply in_ids. eauto. }
      eapply placed_upd; eauto. intros j I. apply in_app_iff in I. destruct I as [I|[<-|[]]].
      * eapply P'; eauto.
      * exists key, dflt. rewrite nset_eq. auto.
    + intros a c k v w Ia Ic. apply (Permutation_in _ Q) in Ia. apply (Permutation_in _ Q) in Ic.
      assert (X : forall j k v, In j (ids_of t) -> h j = Some (k, v) -> k <> key).
      { intros j k0 v0 I E ->. assert (m key = Some v0) by (apply H; eauto). congruence. }
      destruct Ia as [<-|Ia], Ic as [<-|Ic]; auto.
      * rewrite nset_eq, (Ne c Ic). intros E1 E2. injection E1 as <- <-. exfalso. eapply X; eauto.
      * rewrite nset_eq, (Ne a Ia). intros E1 E2. injection E2 as <- <-. exfalso. eapply X; eauto.
      * rewrite (Ne a Ia), (Ne c Ic). apply (tw_keys _ _ W); auto.
  - intros k v. destruct (key_dec k key) as [->|N].
    + rewrite putm_eq. split.
      * intros E. injection E as <-. exists id. split; [apply (Permutation_in _ (Permutation_sym Q)); left; auto|apply nset_eq].
      * intros (j & I & E). apply (Permutation_in _ Q) in I. destruct I as [<-|I].
        -- rewrite nset_eq in E. congruence.
        -- rewrite (Ne j I) in E. assert (m key = Some v) by (apply H; eauto). congruence.
    + rewrite putm_ne by exact N. rewrite (H k v). split; intros (j & I & E).
      * exists j. split; [apply (Permutation_in _ (Permutation_sym Q)); right; auto|rewrite Ne; auto].
      * apply (Permutation_in _ Q) in I. destruct I as [<-|I]; [rewrite nset_eq in E; congruence|].
        exists j. rewrite (Ne j I) in E. auto.
Qed.

(** the node of [k] in [t], with its value *)
Definition entry h t (id : nat) (k : K) (v : V) : Prop := In id (ids_of t) /\ h id = Some (k, v).

Lemma foi_ok h t m hv test key : rep h t m -> nbounded h -> hv = hash key -> (forall x, test x = true <-> x = key) ->
  exists h' t' id, find_or_insert hash dflt full alloc h t hv test key = Some (h', t', id) /\
    rep h' t' (putm m key (Some (or_default dflt (m key)))) /\ entry h' t' id key (or_default dflt (m key)) /\
    nframe h (ids_of t) h' (ids_of t') /\
    (forall j k v, entry h t j k v -> entry h' t' j k v).
Proof.
  intros R B Hh T. pose proof R as [W H]. subst hv. unfold find_or_insert.
  destruct (place_ok (hash key) (num t) (tw_num _ _ W)) as (p & Ep & Lp). rewrite Ep.
  destruct (nth_error (t_buckets t) p) as [b|] eqn:Eb; [|apply nth_error_None in Eb; unfold num in Lp; lia].
  assert (Iin : forall id, In id (bucket_ids b) -> In id (ids_of t)) by (intros id I; apply in_ids; eauto).
  destruct (search_ok h test (bucket_ids b)) as [(id & k & v & -> & I & E & Tk)|[-> F]].
  { intros id I. apply (twf_alloc h t id W). auto. }
  - apply T in Tk. subst k. assert (Em : m key = Some v) by (apply H; eauto).
    exists h, t, id. split; [reflexivity|]. rewrite Em. cbn [or_default].
    split; [|split; [split; auto|split; [apply nframe_refl|auto]]].
    eapply rep_ext; [exact R|]. intros k'. destruct (key_dec k' key) as [->|N]; [rewrite putm_eq; auto|apply putm_ne, N].
  - assert (Em : m key = None).
    { destruct (m key) as [v|] eqn:Em; [|reflexivity]. apply H in Em. destruct Em as (id & I & E).
      apply in_ids in I. destruct I as (i & c & Ec & Ic). destruct (tw_placed _ _ W i c id Ec Ic) as (k' & v' & E' & P').
      rewrite E in E'. injection E' as <- <-. assert (i = p) by congruence. subst i. assert (c = b) by congruence. subst c.
      pose proof (F id key v Ic E) as Ft. rewrite (proj2 (T key) eq_refl) in Ft. discriminate. }
    destruct (Alloc h B) as [An Af].
    pose proof (insert_rep h t m key p b (alloc h) (match b with None => t_used t + 1 | Some _ => t_used t end) R Af Em Ep Eb) as IR.
    cbv zeta in IR. set (t1 := Table _ _) in *. set (h1 := nset h (alloc h) (Some (key, dflt))) in *.
    destruct IR as [R1 Q1]. rewrite Em. cbn [or_default].
    assert (X : exists t2, (if full (t_used t1) (num t1) then refactor hash h1 t1 else Some t1) = Some t2 /\
       rep h1 t2 (putm m key (Some dflt)) /\ Permutation (ids_of t2) (ids_of t1)).
    { destruct (full _ _).
      - apply refactor_ok, R1.
      - exists t1. split; [reflexivity|]. split; [exact R1|reflexivity]. }
    destruct X as (t2 & -> & R2 & Q2). assert (Q : Permutation (ids_of t2) (alloc h :: ids_of t)) by (rewrite Q2; exact Q1).
    assert (Nin : ~ In (alloc h) (ids_of t)) by (intros I; apply (twf_alloc h t _ W I), Af).
    exists h1, t2, (alloc h). split; [reflexivity|]. split; [exact R2|]. split; [|split].
    + split; [apply (Permutation_in _ (Permutation_sym Q)); left; auto|apply nset_eq].
    + split.
      * intros x N Hx. apply nset_ne. congruence.
      * intros x N Hx. assert (Nx : x <> alloc h) by (intros ->; apply N, (Permutation_in _ (Permutation_sym Q)); left; auto).
        unfold h1 in Hx. rewrite nset_ne in Hx by exact Nx. split; [exact Hx|]. intros I. apply N, (Permutation_in _ (Permutation_sym Q)). right; auto.
      * intros x I. apply (Permutation_in _ Q) in I. destruct I as [<-|I]; auto.
      * apply nbounded_nset.
    + intros j k v [I E]. split; [apply (Permutation_in _ (Permutation_sym Q)); right; auto|].
      unfold h1. rewrite nset_ne; auto. intros ->. contradiction.
Qed.

Lemma set_val_ok h t m id key v0 v : rep h t m -> entry h t id key v0 ->
  exists h', set_val h id v = Some h' /\ rep h' t (putm m key (Some v)) /\ entry h' t id key v /\
    nframe h (ids_of t) h' (ids_of t) /\ (forall j, j <> id -> h' j = h j).
Proof.
  intros [W H] [I E]. unfold set_val. rewrite E. cbn [fst]. eexists. split; [reflexivity|].
  assert (Hk : forall j k w, In j (ids_of t) -> h j = Some (k, w) -> exists w', nset h id (Some (key, v)) j = Some (k, w') /\ (j <> id -> w' = w)).
  { intros j k w Ij Ej. destruct (Nat.eq_dec j id) as [->|N].
    - exists v. rewrite nset_eq. split; congruence.
    - exists w. rewrite nset_ne; auto. }
  assert (Hb : forall j k w, In j (ids_of t) -> nset h id (Some (key, v)) j = Some (k, w) -> exists w', h j = Some (k, w') /\ (j <> id -> w' = w)).
  { intros j k w Ij Ej. destruct (Nat.eq_dec j id) as [->|N].
    - exists v0. rewrite nset_eq in Ej. split; congruence.
    - exists w. rewrite nset_ne in Ej; auto. }
  split; [|split; [split; [exact I|apply nset_eq]|split; [|intros j N; apply nset_ne, N]]].
  - split.
    + split; [apply W|apply W| |].
      * intros i b j Ej Ij. destruct (tw_placed _ _ W i b j Ej Ij) as (k & w & Ew & P).
        destruct (Hk j k w) as (w' & E' & _); [apply in_ids; eauto|exact Ew|]. eauto.
      * intros a b k v1 v2 Ia Ib E1 E2. destruct (Hb _ _ _ Ia E1) as (w1 & F1 & _). destruct (Hb _ _ _ Ib E2) as (w2 & F2 & _).
        eapply (tw_keys _ _ W); eauto.
    + intros k w. destruct (key_dec k key) as [->|N].
      * rewrite putm_eq. split.
        -- intros Ew. injection Ew as <-. exists id. split; [exact I|apply nset_eq].
        -- intros (j & Ij & Ej). destruct (Hb _ _ _ Ij Ej) as (w' & F & _).
           assert (j = id) by (eapply (tw_keys _ _ W); eauto). subst j. rewrite nset_eq in Ej. congruence.
      * rewrite putm_ne by exact N. rewrite (H k w). split; intros (j & Ij & Ej); exists j; split; auto.
        -- rewrite nset_ne; auto. intros ->. congruence.
        -- destruct (Nat.eq_dec j id) as [->|Nj]; [rewrite nset_eq in Ej; congruence|rewrite nset_ne in Ej; auto].
  - split.
    + intros x N Hx. apply nset_ne. intros ->. contradiction.
    + intros x N Hx. rewrite nset_ne in Hx by (intros ->; contradiction). auto.
    + auto.
    + apply nbounded_nset.
Qed.

(** Iterators *)
Definition at_pos t (it : hiter) (rest : list nat) : Prop :=
  (i_end it = true /\ rest = []) \/
  (i_end it = false /\ exists l1 u id w l2, t_buckets t = l1 ++ Some (u ++ id :: w) :: l2 /\
     i_cur it = Z.of_nat (length l1) /\ i_node it = Some id /\ rest = id :: w ++ ids_in l2).

Lemma first_from_ok bs : forall i,
  (exists l1 id w l2, first_from bs i = Some (i + Z.of_nat (length l1), id) /\ bs = l1 ++ Some (id :: w) :: l2 /\ ids_in l1 = []) \/
  (first_from bs i = None /\ ids_in bs = []).
Proof.
  induction bs as [|b bs IH]; intros i; cbn [first_from]; [right; auto|].
  destruct b as [[|id w]|].
  - destruct (IH (i + 1)) as [(l1 & id & w & l2 & -> & -> & E)|[-> E]]; [left|right; auto].
    exists (Some [] :: l1), id, w, l2. rewrite ids_cons. cbn [bucket_ids app length]. repeat split; auto. f_equal. f_equal. lia.
  - left. exists [], id, w, bs. cbn. repeat split; auto. f_equal. f_equal. lia.
  - destruct (IH (i + 1)) as [(l1 & id & w & l2 & -> & -> & E)|[-> E]]; [left|right; auto].
    exists (None :: l1), id, w, l2. rewrite ids_cons. cbn [bucket_ids app length]. repeat split; auto. f_equal. f_equal. lia.
Qed.

Lemma begin_ok t : 0 < num t -> exists it, begin_it t = Some it /\ at_pos t it (ids_of t).
Proof.
  intros P. unfold begin_it. destruct (Z.eqb_spec (num t) 0); [lia|].
  unfold inc. cbn [i_end i_cur orb]. destruct (Z.geb_spec (-1) (num t)); [lia|]. change (-1 <? 0) with true. cbn iota.
  destruct (first_from_ok (t_buckets t) 0) as [(l1 & id & w & l2 & -> & E & E0)|[-> E]].
  - eexists. split; [reflexivity|]. right. cbn [i_end i_cur i_node]. split; [reflexivity|].
    exists l1, [], id, w, l2. cbn [app]. repeat split; auto. unfold ids_of. rewrite E. fold (ids_in (l1 ++ Some (id :: w) :: l2)).
    rewrite ids_app, E0. reflexivity.
  - eexists. split; [reflexivity|]. left. split; [reflexivity|exact E].
Qed.

Lemma next_in_ok u id w : NoDup (u ++ id :: w) -> next_in (u ++ id :: w) id = hd_error w.
Proof.
  induction u as [|x u IH]; cbn [app next_in]; intros N.
  - rewrite Nat.eqb_refl. destruct w; reflexivity.
  - inversion N as [|? ? N1 N2]. subst. destruct (Nat.eqb_spec x id) as [->|_]; [|auto].
    exfalso. apply N1, in_app_iff. right; left; auto.
Qed.

Lemma nodup_bucket l1 (l : list nat) l2 : NoDup (ids_in (l1 ++ Some l :: l2)) -> NoDup l.
Proof. rewrite ids_app, ids_cons. cbn. intros N. apply nodup_app_r, nodup_app_l in N. exact N. Qed.

Definition next_it (n : Z) (w : list nat) (l2 : list (option (list nat))) : hiter :=
  match w with
  | id :: _ => HIt n (Some id) false
  | [] => match first_from l2 (n + 1) with Some (i, id) => HIt i (Some id) false | None => HIt n None true end
  end.

Lemma inc_is t it l1 u id w l2 : NoDup (ids_of t) -> t_buckets t = l1 ++ Some (u ++ id :: w) :: l2 ->
  i_end it = false -> i_cur it = Z.of_nat (length l1) -> i_node it = Some id ->
  inc t it = Some (next_it (Z.of_nat (length l1)) w l2).
Proof.
  intros N Eb Ee Ec En. unfold inc. rewrite Ee, Ec, En. cbn [orb].
  assert (Hn : num t = Z.of_nat (length l1) + 1 + Z.of_nat (length l2)).
  { unfold num. rewrite Eb, app_length. cbn [length]. lia. }
  destruct (Z.geb_spec (Z.of_nat (length l1)) (num t)); [lia|]. destruct (Z.ltb_spec (Z.of_nat (length l1)) 0); [lia|].
  assert (Nb : NoDup (u ++ id :: w)).
  { apply (nodup_bucket l1 _ l2). rewrite <- Eb. exact N. }
  rewrite Eb. rewrite nth_split_at by lia. rewrite next_in_ok by exact Nb.
  destruct w as [|id2 w]; cbn [hd_error next_it]; [|reflexivity].
  replace (skipn (Z.to_nat (Z.of_nat (length l1) + 1)) (l1 ++ Some (u ++ [id]) :: l2)) with l2.
  2:{ replace (Z.to_nat (Z.of_nat (length l1) + 1)) with (length (l1 ++ [Some (u ++ [id])])).
      - change (l1 ++ Some (u ++ [id]) :: l2) with (l1 ++ [Some (u ++ [id])] ++ l2). rewrite app_assoc.
        rewrite skipn_app, skipn_all, Nat.sub_diag. reflexivity.
      - rewrite app_length. cbn [length]. lia. }
  destruct (first_from l2 _) as [[i id3]|]; reflexivity.
Qed.

Lemma next_pos t l1 u w l2 : t_buckets t = l1 ++ Some (u ++ w) :: l2 ->
  at_pos t (next_it (Z.of_nat (length l1)) w l2) (w ++ ids_in l2).
Proof.
  intros Eb. unfold next_it. destruct w as [|id2 w].
  - destruct (first_from_ok l2 (Z.of_nat (length l1) + 1)) as [(m1 & id3 & w3 & m2 & -> & E3 & Z3)|[-> E3]].
    + right. cbn [i_end i_cur i_node]. split; [reflexivity|].
      exists (l1 ++ Some (u ++ []) :: m1), [], id3, w3, m2. cbn [app]. split.
      { rewrite Eb, E3, <- app_assoc. reflexivity. }
      split; [rewrite app_length; cbn [length]; lia|]. split; [reflexivity|]. rewrite E3, ids_app, Z3. reflexivity.
    + left. split; [reflexivity|exact E3].
  - right. cbn [i_end i_cur i_node]. split; [reflexivity|]. exists l1, u, id2, w, l2. auto.
Qed.

Lemma inc_ok t it id rest : NoDup (ids_of t) -> at_pos t it (id :: rest) ->
  exists it', inc t it = Some it' /\ at_pos t it' rest.
Proof.
  intros N [[_ X]|(Ee & l1 & u & id' & w & l2 & Eb & Ec & En & Er)]; [discriminate|]. injection Er as <- ->.
  eexists. split; [eapply inc_is; eauto|]. apply next_pos with (u := u ++ [id]). rewrite <- app_assoc. exact Eb.
Qed.

Lemma at_pos_split t it id rest : at_pos t it (id :: rest) -> i_end it = false /\ i_node it = Some id /\
  exists x, ids_of t = x ++ id :: rest.
Proof.
  intros [[_ X]|(Ee & l1 & u & id' & w & l2 & Eb & Ec & En & Er)]; [discriminate|]. injection Er as <- ->.
  split; [exact Ee|]. split; [exact En|]. exists (ids_in l1 ++ u). unfold ids_of. rewrite Eb.
  fold (ids_in (l1 ++ Some (u ++ id :: w) :: l2)). rewrite ids_app, ids_cons. cbn [bucket_ids].
  rewrite <- !app_assoc. reflexivity.
Qed.

Lemma at_pos_nil t it : at_pos t it [] -> i_end it = true.
Proof. intros [[E _]|(_ & l1 & u & id & w & l2 & _ & _ & _ & X)]; [exact E|discriminate]. Qed.

Lemma remove_id_ok u id w : NoDup (u ++ id :: w) -> remove_id (u ++ id :: w) id = u ++ w.
Proof.
  induction u as [|x u IH]; cbn [app remove_id]; intros N.
  - rewrite Nat.eqb_refl. reflexivity.
  - inversion N as [|? ? N1 N2]. subst. destruct (Nat.eqb_spec x id) as [->|_]; [|rewrite IH; auto].
    exfalso. apply N1, in_app_iff. right; left; auto.
Qed.

Lemma twf_erase h t x id rest t' : twf h t -> ids_of t = x ++ id :: rest -> ids_of t' = x ++ rest -> num t' = num t ->
  (forall i b j, nth_error (t_buckets t') i = Some b -> In j (bucket_ids b) ->
     exists c, nth_error (t_buckets t) i = Some c /\ In j (bucket_ids c)) ->
  twf (nset h id None) t'.
Proof.
  intros W E E' N Sub. pose proof (tw_nodup _ _ W) as Nd. rewrite E in Nd. pose proof (NoDup_remove_2 _ _ _ Nd) as Nin.
  assert (S : forall j, In j (ids_of t') -> In j (ids_of t) /\ j <> id).
  { intros j I. rewrite E' in I. split; [rewrite E; apply in_app_iff in I; apply in_app_iff; cbn; tauto|]. intros ->. contradiction. }
  split.
  - rewrite N. apply W.
  - rewrite E'. apply (NoDup_remove_1 _ _ _ Nd).
  - rewrite N. intros i b j Ej Ij. destruct (Sub i b j Ej Ij) as (c & Ec & Ic).
    destruct (tw_placed _ _ W i c j Ec Ic) as (k & v & Ek & P). exists k, v. split; auto. rewrite nset_ne; auto.
    apply S, in_ids. eauto.
  - intros a b k v w Ia Ib. destruct (S a Ia), (S b Ib). rewrite !nset_ne by auto. apply (tw_keys _ _ W); auto.
Qed.

Lemma erase_ok h t it id rest : twf h t -> at_pos t it (id :: rest) ->
  exists t' it' x, erase_it h t it = Some (nset h id None, t', it') /\ twf (nset h id None) t' /\ at_pos t' it' rest /\
    ids_of t = x ++ id :: rest /\ ids_of t' = x ++ rest.
Proof.
  intros W P.
  destruct P as [[_ X]|(Ee & l1 & u & id' & w & l2 & Eb & Ec & En & Er)]; [discriminate|]. injection Er as <- ->.
  assert (Hn : num t = Z.of_nat (length l1) + 1 + Z.of_nat (length l2)).
  { unfold num. rewrite Eb, app_length. cbn [length]. lia. }
  assert (Ex : ids_of t = (ids_in l1 ++ u) ++ id :: w ++ ids_in l2).
  { unfold ids_of. rewrite Eb. fold (ids_in (l1 ++ Some (u ++ id :: w) :: l2)). rewrite ids_app, ids_cons. cbn [bucket_ids].
    rewrite <- !app_assoc. reflexivity. }
  unfold erase_it. rewrite (inc_is t it l1 u id w l2 (tw_nodup _ _ W) Eb Ee Ec En), Ee, Ec, En. cbn [orb].
  destruct (Z.ltb_spec (Z.of_nat (length l1)) 0); [lia|]. destruct (Z.geb_spec (Z.of_nat (length l1)) (num t)); [lia|]. cbn [orb].
  assert (Ah : h id <> None) by (apply (twf_alloc h t id W); rewrite Ex; apply in_app_iff; right; left; auto).
  assert (Nd : NoDup (u ++ id :: w)).
  { apply (nodup_bucket l1 _ l2). rewrite <- Eb. apply W. }
  destruct (h id) as [kv|]; [|congruence]. rewrite Eb. rewrite nth_split_at by lia.
  rewrite remove_id_ok by exact Nd. rewrite upd_split by lia.
  set (t' := Table _ _). exists t', (next_it (Z.of_nat (length l1)) w l2), (ids_in l1 ++ u). split; [reflexivity|].
  assert (Ids : ids_of t' = (ids_in l1 ++ u) ++ w ++ ids_in l2).
  { unfold ids_of, t'. cbn [t_buckets]. fold (ids_in (l1 ++ Some (u ++ w) :: l2)). rewrite ids_app, ids_cons. cbn [bucket_ids].
    rewrite <- !app_assoc. reflexivity. }
  split; [|split; [apply next_pos with (u := u); reflexivity|split; [exact Ex|exact Ids]]].
  eapply twf_erase with (x := ids_in l1 ++ u) (rest := w ++ ids_in l2); eauto.
  - unfold num in *. unfold t'. cbn [t_buckets]. rewrite Hn, app_length. cbn [length]. lia.
  - intros i b j Ej Ij. unfold t' in Ej. cbn [t_buckets] in Ej. destruct (Nat.eq_dec i (length l1)) as [->|Ni].
    + rewrite nth_split_at in Ej by reflexivity. injection Ej as <-. exists (Some (u ++ id :: w)). rewrite Eb, nth_split_at by reflexivity.
      split; [reflexivity|]. cbn [bucket_ids] in *. apply in_app_iff in Ij. apply in_app_iff. cbn. tauto.
    + exists b. split; [|exact Ij]. rewrite Eb. rewrite (nth_other l1 l2 (Some (u ++ w)) _ (length l1) i) by auto. exact Ej.
Qed.

Lemma nframe_del h a b id : In id a -> (forall x, In x b <-> In x a /\ x <> id) -> nframe h a (nset h id None) b.
Proof.
  intros I S. split.
  - intros x N _. apply nset_ne. intros ->. contradiction.
  - intros x N Hx. destruct (Nat.eq_dec x id) as [->|Ne]; [rewrite nset_eq in Hx; congruence|]. rewrite nset_ne in Hx by exact Ne.
    split; [exact Hx|]. intros Ix. apply N, S. auto.
  - intros x Ix. left. apply S, Ix.
  - apply nbounded_nset.
Qed.

Lemma nodup_split_in (x : list nat) id rest : NoDup (x ++ id :: rest) ->
  forall j, In j (x ++ rest) <-> In j (x ++ id :: rest) /\ j <> id.
Proof.
  intros N j. apply NoDup_remove_2 in N. rewrite !in_app_iff. cbn. split; [|intros [[I|[I|I]] E]; auto; congruence].
  intros [I|I]; (split; [tauto|]); intros ->; apply N, in_app_iff; auto.
Qed.

(** loops over all nodes *)
Lemma deref_ok h t it id rest kv : at_pos t it (id :: rest) -> h id = Some kv -> deref h it = Some (id, kv).
Proof. intros P E. destruct (at_pos_split _ _ _ _ P) as (_ & En & _). unfold deref. rewrite En, E. reflexivity. Qed.

Lemma walk_ok h t (n : nat) : twf h t -> forall rest it, (length rest <= n)%nat -> at_pos t it rest ->
  exists vs, walk_all n h t it = Some vs /\ map Some vs = map h rest.
Proof.
  intros W. induction n as [|n IH]; intros [|id rest] it L P.
  - exists []. cbn. rewrite (at_pos_nil _ _ P). auto.
  - cbn in L; lia.
  - exists []. cbn [walk_all]. rewrite (at_pos_nil _ _ P). auto.
  - cbn [walk_all]. destruct (at_pos_split _ _ _ _ P) as (Ee & _ & x & Ex). rewrite Ee.
    assert (A : h id <> None) by (apply (twf_alloc h t id W); rewrite Ex; apply in_app_iff; right; left; auto).
    destruct (h id) as [kv|] eqn:E; [|congruence]. rewrite (deref_ok h t it id rest kv P E).
    destruct (inc_ok t it id rest (tw_nodup _ _ W) P) as (it' & -> & P'). cbn [length] in L.
    destruct (IH rest it') as (vs & -> & Ev); [lia|exact P'|]. exists (kv :: vs). split; [reflexivity|]. cbn. rewrite Ev, E. reflexivity.
Qed.

Lemma find_ok h t test (n : nat) : twf h t -> forall rest it, (length rest <= n)%nat -> at_pos t it rest ->
  exists it', find_loop n h t test it = Some it' /\
   ((i_end it' = true /\ forall id k v, In id rest -> h id = Some (k, v) -> test k = false) \/
    exists id rest' k v, at_pos t it' (id :: rest') /\ In id rest /\ h id = Some (k, v) /\ test k = true).
Proof.
  intros W. induction n as [|n IH]; intros [|id rest] it L P.
  - exists it. cbn. rewrite (at_pos_nil _ _ P). split; [reflexivity|]. left. split; auto. intros id k v [].
  - cbn in L; lia.
  - exists it. cbn [find_loop]. rewrite (at_pos_nil _ _ P). split; [reflexivity|]. left. split; [reflexivity|]. intros id k v [].
  - cbn [find_loop]. destruct (at_pos_split _ _ _ _ P) as (Ee & _ & x & Ex). rewrite Ee.
    assert (A : h id <> None) by (apply (twf_alloc h t id W); rewrite Ex; apply in_app_iff; right; left; auto).
    destruct (h id) as [[k v]|] eqn:E; [|congruence]. rewrite (deref_ok h t it id rest (k, v) P E). cbn [fst].
    destruct (test k) eqn:T.
    + exists it. split; [reflexivity|]. right. exists id, rest, k, v. repeat split; auto. left; auto.
    + destruct (inc_ok t it id rest (tw_nodup _ _ W) P) as (it' & -> & P'). cbn [length] in L.
      destruct (IH rest it') as (it2 & -> & H); [lia|exact P'|]. exists it2. split; [reflexivity|].
      destruct H as [[H1 H2]|(j & r & k' & v' & H1 & H2 & H3 & H4)].
      * left. split; auto. intros j k' v' [<-|I] Ej; [congruence|eauto].
      * right. exists j, r, k', v'. repeat split; auto. right; auto.
Qed.

Lemma find_by_ok h t m test key : rep h t m -> (forall x, test x = true <-> x = key) ->
  exists it, find_by h t test = Some it /\
   ((i_end it = true /\ m key = None) \/
    exists id rest v, at_pos t it (id :: rest) /\ h id = Some (key, v) /\ m key = Some v).
Proof.
  intros [W H] T. unfold find_by. destruct (begin_ok t (tw_num _ _ W)) as (b & -> & P).
  destruct (find_ok h t test (fuel_of t) W (ids_of t) b) as (it & -> & C); [unfold fuel_of; lia|exact P|].
  exists it. split; [reflexivity|]. destruct C as [[E F]|(id & rest & k & v & P' & I & E & Tk)].
  - left. split; auto. destruct (m key) as [v|] eqn:Em; auto. apply H in Em. destruct Em as (id & I & Ei).
    pose proof (F id key v I Ei) as X. rewrite (proj2 (T key) eq_refl) in X. discriminate.
  - right. apply T in Tk. subst k. exists id, rest, v. repeat split; auto. apply H. eauto.
Qed.

Lemma eraseif_ok p (n : nat) : forall rest h t it x, twf h t -> ids_of t = x ++ rest -> (length rest <= n)%nat -> at_pos t it rest ->
  exists h' t' vs, erase_loop n p h t it = Some (h', t', vs) /\ twf h' t' /\ map Some vs = map h rest /\
    nframe h (ids_of t) h' (ids_of t') /\
    (forall id, In id (ids_of t') <-> In id (ids_of t) /\ (In id rest -> exists kv, h id = Some kv /\ p kv = false)) /\
    (forall id, In id (ids_of t') -> h' id = h id).
Proof.
  induction n as [|n IH]; intros [|id rest] h t it x W Ex L P.
  1,3: exists h, t, []; cbn [erase_loop]; rewrite (at_pos_nil _ _ P);
    split; [reflexivity|]; split; [exact W|]; split; [reflexivity|]; split; [apply nframe_refl|]; split; [|auto];
    intros id; split; [intros I; split; [exact I|intros []]|tauto].
  - cbn in L; lia.
  - cbn [erase_loop]. destruct (at_pos_split _ _ _ _ P) as (Ee & _ & _). rewrite Ee.
    pose proof (tw_nodup _ _ W) as Nd. rewrite Ex in Nd.
    assert (A : h id <> None) by (apply (twf_alloc h t id W); rewrite Ex; apply in_app_iff; right; left; auto).
    destruct (h id) as [kv|] eqn:E; [|congruence]. rewrite (deref_ok h t it id rest kv P E). cbn [length] in L.
    assert (Nr : ~ In id (x ++ rest)) by (apply NoDup_remove_2, Nd).
    assert (Nr2 : ~ In id rest) by (intros I; apply Nr, in_app_iff; auto).
    destruct (p kv) eqn:Pk.
    + destruct (erase_ok h t it id rest W P) as (t1 & it1 & x1 & -> & W1 & P1 & Ex1 & Ei1).
      assert (x1 = x) by (rewrite Ex in Ex1; apply app_inv_tail in Ex1; auto). subst x1.
      destruct (IH rest (nset h id None) t1 it1 x W1 Ei1) as (h2 & t2 & vs & -> & W2 & Ev & F2 & I2 & S2); [lia|exact P1|].
      exists h2, t2, (kv :: vs). split; [reflexivity|]. split; [exact W2|].
      assert (Hr : forall j, In j rest -> nset h id None j = h j) by (intros j I; apply nset_ne; intros ->; contradiction).
      split; [cbn [map]; rewrite Ev, E; f_equal; apply map_ext_in; exact Hr|].
      split; [|split].
      * eapply nframe_trans; [|exact F2]. apply nframe_del; [rewrite Ex; apply in_app_iff; right; left; auto|].
        intros j. rewrite Ei1, Ex. apply nodup_split_in, Nd.
      * intros j. rewrite I2, Ei1, Ex, (nodup_split_in x id rest Nd). split.
        -- intros [[I1 N1] C]. split; [exact I1|]. intros [<-|Ij]; [congruence|]. destruct (C Ij) as (kv' & E' & P'). rewrite Hr in E' by exact Ij. eauto.
        -- intros [I1 C]. assert (Nj : j <> id).
           { intros ->. destruct (C (or_introl eq_refl)) as (kv' & E' & P'). congruence. }
           split; [auto|]. intros Ij. destruct (C (or_intror Ij)) as (kv' & E' & P'). exists kv'. rewrite Hr; auto.
      * intros j Ij. rewrite (S2 j Ij). apply nset_ne. intros ->. apply I2 in Ij. rewrite Ei1 in Ij. destruct Ij as [Ij _]. contradiction.
    + destruct (inc_ok t it id rest (tw_nodup _ _ W) P) as (it' & -> & P').
      destruct (IH rest h t it' (x ++ [id]) W) as (h2 & t2 & vs & -> & W2 & Ev & F2 & I2 & S2);
        [rewrite <- app_assoc; exact Ex|lia|exact P'|].
      exists h2, t2, (kv :: vs). split; [reflexivity|]. split; [exact W2|]. split; [cbn [map]; rewrite Ev, E; reflexivity|].
      split; [exact F2|]. split; [|exact S2]. intros j. rewrite I2. split; intros [I1 C]; split; auto.
      * intros [<-|Ij]; eauto.
      * intros Ij. apply C. right; auto.
Qed.

(** deleting all nodes *)
Lemma del_ok ids : forall h, NoDup ids -> (forall id, In id ids -> h id <> None) ->
  exists h', del_nodes h ids = Some h' /\ (forall id, In id ids -> h' id = None) /\ (forall id, ~ In id ids -> h' id = h id) /\
    (nbounded h -> nbounded h').
Proof.
  induction ids as [|id ids IH]; intros h N A; cbn [del_nodes].
  - exists h. repeat split; auto. intros id [].
  - destruct (h id) as [kv|] eqn:E; [|exfalso; apply (A id); [left; auto|exact E]]. inversion N as [|? ? N1 N2]. subst.
    destruct (IH (nset h id None)) as (h' & -> & H1 & H2 & H3); auto.
    { intros j I. rewrite nset_ne; [apply A; right; auto|]. intros ->. contradiction. }
    exists h'. split; [reflexivity|]. split; [|split].
    + intros j [<-|I]; [rewrite H2 by exact N1; apply nset_eq|auto].
    + intros j Nj. rewrite H2 by (intros I; apply Nj; right; auto). apply nset_ne. intros ->. apply Nj. left; auto.
    + intros B. apply H3, nbounded_nset, B.
Qed.

Lemma clear0_ok h t : twf h t -> exists h', clear0 h t = Some (h', Table [] (t_used t)) /\ nframe h (ids_of t) h' [] /\
  (forall id, In id (ids_of t) -> h' id = None).
Proof.
  intros W. unfold clear0. destruct (del_ok (ids_of t) h (tw_nodup _ _ W)) as (h' & -> & H1 & H2 & H3).
  { intros id. apply twf_alloc, W. }
  exists h'. split; [reflexivity|]. split; [|exact H1]. split; auto.
  - intros x _ Hx. destruct (in_dec Nat.eq_dec x (ids_of t)) as [I|N]; [rewrite (H1 x I) in Hx; congruence|].
    rewrite H2 in Hx by exact N. auto.
  - intros x [].
Qed.

Lemma clear_ok h t : twf h t -> exists h' t', clear_table hash h t = Some (h', t') /\ rep h' t' empty_map /\ ids_of t' = [] /\
  nframe h (ids_of t) h' (ids_of t').
Proof.
  intros W. unfold clear_table. destruct (clear0_ok h t W) as (h' & -> & F & _). cbn [refactor num t_buckets length Z.of_nat Z.eqb].
  eexists _, _. split; [reflexivity|]. split; [apply rep_empty; lia|]. split; [reflexivity|]. exact F.
Qed.

(** copying *)
Lemma copy_ok_h (o : table) (h0 : @nheap K V) : twf h0 o -> forall (n : nat) rest h t mt it,
  (length rest <= n)%nat -> at_pos o it rest -> rep h t mt -> nbounded h ->
  (forall id, In id (ids_of o) -> h id = h0 id) -> (forall id, In id (ids_of o) -> In id (ids_of t) -> False) ->
  exists h' t' m', copy_loop_h hash cmp dflt full alloc n h t o it = Some (h', t') /\ rep h' t' m' /\
    nframe h (ids_of t) h' (ids_of t') /\
    (forall id k v, In id rest -> h0 id = Some (k, v) -> m' k = Some v) /\
    (forall k, (forall id v, In id rest -> h0 id <> Some (k, v)) -> m' k = mt k).
Proof.
  intros Wo. induction n as [|n IH]; intros [|id rest] h t mt it L P R B S D.
  1,3: exists h, t, mt; cbn [copy_loop_h]; rewrite (at_pos_nil _ _ P);
    split; [reflexivity|]; split; [exact R|]; split; [apply nframe_refl|]; split; [intros id k v []|auto].
  - cbn in L; lia.
  - cbn [copy_loop_h]. destruct (at_pos_split _ _ _ _ P) as (Ee & _ & x & Ex). rewrite Ee. cbn [length] in L.
    assert (Io : In id (ids_of o)) by (rewrite Ex; apply in_app_iff; right; left; auto).
    pose proof (twf_alloc h0 o id Wo Io) as A. destruct (h0 id) as [[k v]|] eqn:E; [|congruence].
    rewrite (deref_ok h o it id rest (k, v) P) by (rewrite S; auto). cbn [fst snd]. unfold by_key.
    destruct (foi_ok h t mt (hash k) (fun y => cmp y k =? 0) k R B eq_refl) as (h1 & t1 & nid & -> & R1 & E1 & F1 & K1).
    { intros y. rewrite Z.eqb_eq. apply KO. }
    destruct (set_val_ok h1 t1 _ nid k _ v R1 E1) as (h2 & -> & R2 & E2 & F2 & _).
    destruct (inc_ok o it id rest (tw_nodup _ _ Wo) P) as (it' & -> & P').
    assert (F12 : nframe h (ids_of t) h2 (ids_of t1)) by (eapply nframe_trans; eauto).
    assert (Ah : forall j, In j (ids_of o) -> h j <> None) by (intros j I; rewrite S by exact I; apply (twf_alloc h0 o j Wo I)).
    destruct (IH rest h2 t1 _ it' ltac:(lia) P' R2) as (h3 & t3 & m3 & -> & R3 & F3 & V3 & O3).
    + apply F12, B.
    + intros j I. rewrite <- (S j I). apply F12; [intros It; eapply D; eauto|apply Ah, I].
    + intros j I It. destruct (nf_own _ _ _ _ F12 j It) as [It0|N]; [eapply D; eauto|]. apply (Ah j I N).
    + exists h3, t3, m3. split; [reflexivity|]. split; [exact R3|]. split; [eapply nframe_trans; eauto|].
      pose proof (tw_nodup _ _ Wo) as Nd. rewrite Ex in Nd. split.
      * intros j k' v' [<-|I] Ej; [|eauto]. rewrite E in Ej. injection Ej as <- <-.
        rewrite O3; [apply putm_eq|]. intros j v' I Ej.
        assert (j = id).
        { eapply (tw_keys _ _ Wo); eauto. rewrite Ex. apply in_app_iff. right; right; auto. }
        subst j. apply NoDup_remove_2 in Nd. apply Nd, in_app_iff. auto.
      * intros k' N. rewrite O3; [|intros j v' I; apply N; right; auto].
        rewrite !putm_ne; auto; intros ->; apply (N id v); auto; left; auto.
Qed.
End Hash.
