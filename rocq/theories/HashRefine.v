(** Programs over several THash tables. *)
From Coq Require Import List ZArith Bool Arith Lia Permutation.
From Verif Require Import Seq ListModel VecProofs HashModel HashSpec HashProofs.
Import ListNotations.
Local Open Scope Z_scope.

Section HashRefine.
Context {K V U : Type}.
Variable hash : K -> Z.
Variable cmp : K -> K -> Z.
Variable conv : U -> K.
Variable hash_alt : U -> Z.
Variable cmp_alt : U -> K -> Z.
Variable eq_alt : K -> U -> bool.
Variable dflt : V.
Variable full : Z -> Z -> bool.
Variable alloc : @nheap K V -> nat.
Hypothesis KO : key_ok conv hash cmp hash_alt cmp_alt eq_alt.
Hypothesis Alloc : nallocator alloc.
Implicit Types (h : @nheap K V) (t : table) (m : @fmap K V) (s : @hsys K V) (sp : @maps K V) (o : @hop K V U).

Notation rep := (rep hash).
Notation twf := (twf hash).
Notation step := (hstep hash cmp conv hash_alt cmp_alt eq_alt dflt full alloc).
Notation run := (hrun hash cmp conv hash_alt cmp_alt eq_alt dflt full alloc).

Definition owned (x : option table) : list nat := match x with Some t => ids_of t | None => [] end.

Record hrel s sp : Prop := HRel {
  hr_some : forall l t, h_tables s l = Some t -> exists m, sp l = Some m /\ rep (h_heap s) t m;
  hr_none : forall l, h_tables s l = None -> sp l = None;
  hr_disj : forall l1 l2 x, l1 <> l2 -> In x (owned (h_tables s l1)) -> In x (owned (h_tables s l2)) -> False;
  hr_leak : forall x, h_heap s x <> None -> exists l, In x (owned (h_tables s l));
  hr_bnd : nbounded (h_heap s) }.

Lemma owned_alloc s sp l x : hrel s sp -> In x (owned (h_tables s l)) -> h_heap s x <> None.
Proof.
  intros R I. destruct (h_tables s l) as [t|] eqn:E; [|destruct I]. destruct (hr_some _ _ R l t E) as (m & _ & W & _).
  apply (twf_alloc hash _ t x W I).
Qed.

(** entries of the other tables are not touched *)
Lemma frame_other s sp l l2 h' a' x : hrel s sp -> nframe (h_heap s) (owned (h_tables s l)) h' a' ->
  l2 <> l -> In x (owned (h_tables s l2)) -> h' x = h_heap s x.
Proof.
  intros R F N I. apply (nf_old _ _ _ _ F); [|eapply owned_alloc; eauto].
  intros I2. eapply (hr_disj _ _ R); eauto.
Qed.

Lemma put_rel s sp l h' x' y' : hrel s sp -> nframe (h_heap s) (owned (h_tables s l)) h' (owned x') ->
  match x' with Some t => exists m, y' = Some m /\ rep h' t m | None => y' = None end ->
  hrel (HSys h' (mset (h_tables s) l x')) (mset sp l y').
Proof.
  intros R F Y. split; cbn [h_heap h_tables].
  - intros l2 t E. destruct (Nat.eq_dec l2 l) as [->|N].
    + rewrite mset_eq in E; rewrite mset_eq. subst x'. exact Y.
    + rewrite mset_ne in E by exact N; rewrite mset_ne by exact N. destruct (hr_some _ _ R l2 t E) as (m & Em & Rm). exists m. split; auto.
      eapply rep_same; eauto. intros id I. eapply frame_other; eauto. rewrite E. exact I.
  - intros l2 E. destruct (Nat.eq_dec l2 l) as [->|N].
    + rewrite mset_eq in E; rewrite mset_eq. subst x'. exact Y.
    + rewrite mset_ne in E by exact N; rewrite mset_ne by exact N. apply (hr_none _ _ R), E.
  - assert (C : forall l2 x, l2 <> l -> In x (owned x') -> In x (owned (h_tables s l2)) -> False).
    { intros l2 x N I1 I2. destruct (nf_own _ _ _ _ F x I1) as [I|E]; [eapply (hr_disj _ _ R); eauto|].
      eapply owned_alloc; eauto. }
    intros l1 l2 x N. destruct (Nat.eq_dec l1 l) as [->|N1], (Nat.eq_dec l2 l) as [->|N2]; try congruence.
    + rewrite mset_eq, mset_ne by exact N2. eauto.
    + rewrite mset_eq, mset_ne by exact N1. eauto.
    + rewrite !mset_ne by auto. apply (hr_disj _ _ R); auto.
  - intros x Hx. destruct (in_dec Nat.eq_dec x (owned x')) as [I|N]; [exists l; rewrite mset_eq; exact I|].
    destruct (nf_new _ _ _ _ F x N Hx) as [H1 H2]. destruct (hr_leak _ _ R x H1) as (l2 & I). exists l2.
    rewrite mset_ne; auto. intros ->. contradiction.
  - apply F, R.
Qed.

(** the node of a key of table [l] *)
Definition node_at s (l id : nat) (k : K) (v : V) : Prop :=
  exists t, h_tables s l = Some t /\ entry (h_heap s) t id k v.

(** operations that do not remove [k] from [l] *)
Definition keeps (l : nat) (k : K) o : Prop :=
  match o with
  | HDestroy l' | HClear l' | HAssign l' _ => l' <> l
  | HErase l' u => l' = l -> conv u <> k
  | HEraseIf l' p => l' = l -> forall v, p (k, v) = false
  | _ => True
  end.

Definition kept s s' o : Prop := forall l id k v, node_at s l id k v -> keeps l k o -> exists v', node_at s' l id k v'.

Lemma kept_refl s o : kept s s o.
Proof. intros l id k v H _. eauto. Qed.

Lemma kept_other s sp l h' x' o : hrel s sp -> nframe (h_heap s) (owned (h_tables s l)) h' (owned x') ->
  (forall t id k v, h_tables s l = Some t -> entry (h_heap s) t id k v -> keeps l k o -> exists t' v', x' = Some t' /\ entry h' t' id k v') ->
  kept s (HSys h' (mset (h_tables s) l x')) o.
Proof.
  intros R F H l2 id k v (t & E & En) Kp. destruct (Nat.eq_dec l2 l) as [->|N].
  - destruct (H t id k v E En Kp) as (t' & v' & -> & En'). exists v', t'. cbn. rewrite mset_eq. auto.
  - exists v, t. cbn. rewrite mset_ne by exact N. split; [exact E|]. destruct En as [I Ei]. split; [exact I|].
    rewrite (frame_other s sp l l2 h' (owned x') id R F N); [exact Ei|rewrite E; exact I].
Qed.

Definition is_some {A} (x : option A) : bool := match x with Some _ => true | None => false end.

Lemma lists_walk h t m vs : rep h t m -> map Some vs = map h (ids_of t) -> lists m vs.
Proof.
  intros [W H] E.
  assert (P : forall kv, In kv vs <-> exists id, In id (ids_of t) /\ h id = Some kv).
  { intros kv. rewrite <- (in_map_iff h (ids_of t) (Some kv)) || idtac.
    split.
    - intros I. assert (J : In (Some kv) (map h (ids_of t))) by (rewrite <- E; apply in_map, I).
      apply in_map_iff in J. destruct J as (id & E1 & I1). eauto.
    - intros (id & I & E1). assert (J : In (Some kv) (map Some vs)) by (rewrite E, <- E1; apply in_map, I).
      apply in_map_iff in J. destruct J as (kv' & E2 & I2). congruence. }
  split.
  - assert (Kd : forall a b k v w, In a (ids_of t) -> In b (ids_of t) -> h a = Some (k, v) -> h b = Some (k, w) -> a = b) by apply W.
    pose proof (tw_nodup _ _ _ W) as N. clear H P W. revert vs E. induction (ids_of t) as [|id ids IH]; intros [|[k v] vs] E; try discriminate.
    + constructor.
    + cbn [map] in *. injection E as E1 E2. inversion N as [|? ? N1 N2]. subst. constructor.
      * intros I. apply in_map_iff in I. destruct I as ([k' w] & Ek & I). cbn in Ek. subst k'.
        assert (J : In (Some (k, w)) (map h ids)) by (rewrite <- E2; apply in_map, I).
        apply in_map_iff in J. destruct J as (j & Ej & Ij). 
        assert (j = id) by (apply (Kd j id k w v); auto; [right; auto|left; auto]). subst j. contradiction.
      * apply IH; auto. intros a b k' v' w Ia Ib. apply Kd; right; auto.
  - intros k v. rewrite P. symmetry. apply H.
Qed.

Lemma copied_map h0 (o : table) mo m' : rep h0 o mo ->
  (forall id k v, In id (ids_of o) -> h0 id = Some (k, v) -> m' k = Some v) ->
  (forall k, (forall id v, In id (ids_of o) -> h0 id <> Some (k, v)) -> m' k = None) ->
  forall k, m' k = mo k.
Proof.
  intros [W H] A B k. destruct (mo k) as [v|] eqn:E.
  - apply H in E. destruct E as (id & I & E). eauto.
  - apply B. intros id v I Ei. assert (mo k = Some v) by (apply H; eauto). congruence.
Qed.

Lemma erased_map h t m h' t' p : rep h t m -> twf h' t' ->
  (forall id, In id (ids_of t') <-> In id (ids_of t) /\ exists kv, h id = Some kv /\ p kv = false) ->
  (forall id, In id (ids_of t') -> h' id = h id) ->
  rep h' t' (fun k => match m k with Some v => if p (k, v) then None else Some v | None => None end).
Proof.
  intros [W H] W' I S. split; [exact W'|]. intros k v. split.
  - destruct (m k) as [w|] eqn:E; [|discriminate]. destruct (p (k, w)) eqn:P; [discriminate|]. intros X. injection X as <-.
    apply H in E. destruct E as (id & Ii & E). exists id. assert (I' : In id (ids_of t')) by (apply I; eauto).
    split; [exact I'|]. rewrite S; auto.
  - intros (id & Ii & E). rewrite S in E by exact Ii. apply I in Ii. destruct Ii as (Ii & kv & E2 & P).
    assert (kv = (k, v)) by congruence. subst kv. assert (m k = Some v) as -> by (apply H; eauto). rewrite P. reflexivity.
Qed.

Lemma step_ok s sp o : hrel s sp -> alive (fun l => is_some (h_tables s l)) o = true ->
  exists s' r sp', step s o = Some (s', r) /\ mstep conv dflt sp o sp' r /\ hrel s' sp' /\ kept s s' o /\
    (forall l, is_some (h_tables s' l) = lives (fun l => is_some (h_tables s l)) o l).
Proof.
  intros R A.
  assert (Bn := hr_bnd _ _ R).
  assert (Tab : forall l, is_some (h_tables s l) = true -> exists t m, h_tables s l = Some t /\ sp l = Some m /\ rep (h_heap s) t m).
  { intros l E. destruct (h_tables s l) as [t|] eqn:Et; [|discriminate]. destruct (hr_some _ _ R l t Et) as (m & Em & Rm). eauto. }
  assert (Sm : forall h' l t' l2, is_some (h_tables (HSys h' (mset (h_tables s) l (Some t'))) l2) = (l2 =? l)%nat || is_some (h_tables s l2)).
  { intros h' l t' l2. cbn. unfold mset. destruct (l2 =? l)%nat; reflexivity. }
  assert (Sm2 : forall h' l t' l2, is_some (h_tables s l) = true ->
     is_some (h_tables (HSys h' (mset (h_tables s) l (Some t'))) l2) = is_some (h_tables s l2)).
  { intros h' l t' l2 E. rewrite Sm. destruct (Nat.eqb_spec l2 l) as [->|]; [rewrite E|]; reflexivity. }
  destruct o as [l|l l2|l l2|l|l|l k|l k v|l u v|l u|l u|l u|l p|l]; cbn [alive] in A.
  - (* new *)
    destruct (h_tables s l) as [t|] eqn:E; [discriminate|]. cbn [hstep]. rewrite E. unfold new_table, refactor, hput. cbn [num t_buckets length Z.of_nat Z.eqb].
    eexists _, _, _. split; [reflexivity|]. split; [apply MNew with (m := empty_map); [apply (hr_none _ _ R), E|reflexivity]|].
    assert (F : nframe (h_heap s) (owned (h_tables s l)) (h_heap s) (owned (Some (Table (repeat None 32) 0)))).
    { rewrite E. apply nframe_refl. }
    split; [|split; [|intros l2; apply Sm]].
    + apply put_rel; auto. eexists. split; [reflexivity|]. apply rep_empty. lia.
    + eapply kept_other; eauto. intros t id k v Et. congruence.
  - (* copy *)
    destruct (h_tables s l) as [t|] eqn:E; [discriminate|]. cbn [is_some negb andb] in A.
    destruct (Tab l2 A) as (w & m & Ew & Em & Rw). cbn [hstep]. rewrite E, Ew. unfold copy_table.
    destruct (begin_ok w (tw_num _ _ _ (proj1 Rw))) as (b & -> & P).
    destruct (copy_ok_h hash cmp conv hash_alt cmp_alt eq_alt dflt full alloc KO Alloc w (h_heap s) (proj1 Rw) (fuel_of w) (ids_of w)
      (h_heap s) (Table (repeat None (length (t_buckets w))) (t_used w)) empty_map b) as (h' & t' & m' & -> & R' & F & V1 & V2); auto.
    { unfold fuel_of. lia. }
    { apply rep_empty. pose proof (tw_num _ _ _ (proj1 Rw)) as X. unfold num in X. lia. }
    { intros id _. unfold ids_of. cbn [t_buckets]. fold (ids_in (repeat None (length (t_buckets w)))). rewrite ids_repeat. intros []. }
    replace (ids_of (Table (repeat None (length (t_buckets w))) (t_used w))) with (owned (h_tables s l)) in F
      by (rewrite E; symmetry; apply ids_repeat).
    cbn [hput]. eexists _, _, _. split; [reflexivity|]. split.
    { apply MCopy with (m := m) (m' := m'); auto; [apply (hr_none _ _ R), E|]. eapply copied_map; eauto. }
    split; [|split; [|intros l3; apply Sm]].
    + apply put_rel; eauto.
    + eapply kept_other; eauto. intros t id k v Et. congruence.
  - (* assign *)
    apply andb_true_iff in A. destruct A as [A Ne]. apply andb_true_iff in A. destruct A as [A1 A2].
    destruct (Tab l A1) as (t & mt & Et & Emt & Rt). destruct (Tab l2 A2) as (w & m & Ew & Em & Rw).
    apply negb_true_iff, Nat.eqb_neq in Ne. cbn [hstep]. rewrite Et, Ew. rewrite (proj2 (Nat.eqb_neq l l2) Ne).
    unfold assign_table. destruct (clear_ok hash _ t (proj1 Rt)) as (h1 & t1 & -> & R1 & E1 & F1).
    destruct (begin_ok w (tw_num _ _ _ (proj1 Rw))) as (b & -> & P).
    assert (Same : forall id, In id (ids_of w) -> h1 id = h_heap s id).
    { intros id I. apply (nf_old _ _ _ _ F1); [|apply (twf_alloc hash _ w id (proj1 Rw) I)].
      intros It. apply (hr_disj _ _ R l l2 id Ne); [rewrite Et; exact It|rewrite Ew; exact I]. }
    destruct (copy_ok_h hash cmp conv hash_alt cmp_alt eq_alt dflt full alloc KO Alloc w (h_heap s) (proj1 Rw) (fuel_of w) (ids_of w)
      h1 t1 empty_map b) as (h' & t' & m' & -> & R' & F & V1 & V2); auto.
    { unfold fuel_of. lia. }
    { apply F1, Bn. }
    { intros id _. rewrite E1. intros []. }
    assert (F2 : nframe (h_heap s) (owned (h_tables s l)) h' (owned (Some t'))).
    { rewrite Et. eapply nframe_trans; eauto. }
    cbn [hput]. eexists _, _, _. split; [reflexivity|]. split.
    { apply MAssign with (m0 := mt) (m := m) (m' := m'); auto. eapply copied_map; eauto. }
    split; [|split; [|intros l3; apply Sm2, A1]].
    + apply put_rel; eauto.
    + eapply kept_other; eauto. intros t0 id k v _ _ Kp. cbn in Kp. congruence.
  - (* destroy *)
    destruct (Tab l A) as (t & m & Et & Em & Rt). cbn [hstep]. rewrite Et.
    destruct (clear0_ok hash (h_heap s) t (proj1 Rt)) as (h' & -> & F & _).
    replace (ids_of t) with (owned (h_tables s l)) in F by (rewrite Et; reflexivity).
    eexists _, _, _. split; [reflexivity|]. split; [eapply MDestroy; eauto|]. split; [|split].
    + apply put_rel; auto.
    + eapply kept_other with (x' := None); eauto. intros t0 id k v _ _ Kp. cbn in Kp. congruence.
    + intros l3. cbn. unfold mset. destruct (l3 =? l)%nat; reflexivity.
  - (* clear *)
    destruct (Tab l A) as (t & m & Et & Em & Rt). cbn [hstep]. rewrite Et.
    destruct (clear_ok hash _ t (proj1 Rt)) as (h1 & t1 & -> & R1 & E1 & F1).
    replace (ids_of t) with (owned (h_tables s l)) in F1 by (rewrite Et; reflexivity). cbn [hput].
    eexists _, _, _. split; [reflexivity|]. split; [apply MClear with (m := m) (m' := empty_map); auto|].
    split; [|split; [|intros l3; apply Sm2, A]].
    + apply put_rel; eauto.
    + eapply kept_other with (x' := Some t1); eauto. intros t0 id k v _ _ Kp. cbn in Kp. congruence.
  - (* operator[] *)
    destruct (Tab l A) as (t & m & Et & Em & Rt). cbn [hstep]. rewrite Et. unfold by_key.
    destruct (foi_ok hash cmp conv hash_alt cmp_alt eq_alt dflt full alloc KO Alloc (h_heap s) t m (hash k) (fun y => cmp y k =? 0) k Rt Bn eq_refl)
      as (h1 & t1 & nid & -> & R1 & E1 & F1 & K1).
    { intros y. rewrite Z.eqb_eq. apply KO. }
    pose proof E1 as [_ ->]. cbn [snd]. replace (ids_of t) with (owned (h_tables s l)) in F1 by (rewrite Et; reflexivity).
    eexists _, _, _. split; [reflexivity|]. split.
    { eapply MAt; eauto. eapply bound_putm, KO. }
    split; [|split; [|intros l3; apply Sm2, A]].
    + apply put_rel; eauto.
    + eapply kept_other with (x' := Some t1); eauto. intros t0 id k' v' Et0 En _. assert (t0 = t) by congruence. subst t0. eauto.
  - (* operator[] = *)
    destruct (Tab l A) as (t & m & Et & Em & Rt). cbn [hstep]. rewrite Et. unfold by_key.
    destruct (foi_ok hash cmp conv hash_alt cmp_alt eq_alt dflt full alloc KO Alloc (h_heap s) t m (hash k) (fun y => cmp y k =? 0) k Rt Bn eq_refl)
      as (h1 & t1 & nid & -> & R1 & E1 & F1 & K1).
    { intros y. rewrite Z.eqb_eq. apply KO. }
    destruct (set_val_ok hash cmp conv hash_alt cmp_alt eq_alt KO h1 t1 _ nid k _ v R1 E1) as (h2 & -> & R2 & E2 & F2 & S2). cbn [hput].
    assert (F : nframe (h_heap s) (owned (h_tables s l)) h2 (owned (Some t1))) by (rewrite Et; eapply nframe_trans; eauto).
    eexists _, _, _. split; [reflexivity|]. split.
    { eapply MPut with (m' := putm cmp (putm cmp m k _) k (Some v)); eauto. split; [eapply putm_eq, KO|].
      intros k' N. rewrite !(putm_ne hash cmp conv hash_alt cmp_alt eq_alt KO) by exact N. reflexivity. }
    split; [|split; [|intros l3; apply Sm2, A]].
    + apply put_rel; eauto.
    + eapply kept_other with (x' := Some t1); eauto. intros t0 id k' v' Et0 En _. assert (t0 = t) by congruence. subst t0.
      destruct (K1 _ _ _ En) as [I1 Ei1]. destruct (Nat.eq_dec id nid) as [->|Nn].
      * exists t1, v. split; auto. destruct E1 as [_ E1]. destruct E2 as [I2 E2]. rewrite E1 in Ei1. injection Ei1 as -> _. split; auto.
      * exists t1, v'. split; auto. split; auto. rewrite S2; auto.
  - (* AltFindOrInsert *)
    destruct (Tab l A) as (t & m & Et & Em & Rt). cbn [hstep]. rewrite Et. unfold by_alt.
    destruct (foi_ok hash cmp conv hash_alt cmp_alt eq_alt dflt full alloc KO Alloc (h_heap s) t m (hash_alt u) (fun y => cmp_alt u y =? 0) (conv u) Rt Bn
      (ko_hash _ _ _ _ _ _ KO u)) as (h1 & t1 & nid & -> & R1 & E1 & F1 & K1).
    { intros y. rewrite Z.eqb_eq. apply KO. }
    destruct (set_val_ok hash cmp conv hash_alt cmp_alt eq_alt KO h1 t1 _ nid (conv u) _ v R1 E1) as (h2 & -> & R2 & E2 & F2 & S2). cbn [hput].
    assert (F : nframe (h_heap s) (owned (h_tables s l)) h2 (owned (Some t1))) by (rewrite Et; eapply nframe_trans; eauto).
    eexists _, _, _. split; [reflexivity|]. split.
    { eapply MAltPut with (m' := putm cmp (putm cmp m (conv u) _) (conv u) (Some v)); eauto. split; [eapply putm_eq, KO|].
      intros k' N. rewrite !(putm_ne hash cmp conv hash_alt cmp_alt eq_alt KO) by exact N. reflexivity. }
    split; [|split; [|intros l3; apply Sm2, A]].
    + apply put_rel; eauto.
    + eapply kept_other with (x' := Some t1); eauto. intros t0 id k' v' Et0 En _. assert (t0 = t) by congruence. subst t0.
      destruct (K1 _ _ _ En) as [I1 Ei1]. destruct (Nat.eq_dec id nid) as [->|Nn].
      * exists t1, v. split; auto. destruct E1 as [_ E1]. destruct E2 as [I2 E2]. rewrite E1 in Ei1. injection Ei1 as <- _. split; auto.
      * exists t1, v'. split; auto. split; auto. rewrite S2; auto.
  - (* find *)
    destruct (Tab l A) as (t & m & Et & Em & Rt). cbn [hstep]. rewrite Et.
    destruct (find_by_ok hash (h_heap s) t m (fun k => eq_alt k u) (conv u) Rt) as (it & -> & C).
    { intros y. apply KO. }
    exists s. destruct C as [[Ee Ek]|(id & rest & v & P & Ei & Ek)].
    + exists (HFound None), sp. unfold found. rewrite Ee. split; [reflexivity|].
      split; [|split; [exact R|split; [apply kept_refl|reflexivity]]]. pose proof (MFind conv dflt sp l u m Em) as X. rewrite Ek in X. exact X.
    + exists (HFound (Some (conv u, v))), sp. unfold found. destruct (at_pos_split t it id rest P) as (-> & _).
      rewrite (deref_ok (h_heap s) t it id rest _ P Ei). split; [reflexivity|].
      split; [|split; [exact R|split; [apply kept_refl|reflexivity]]]. pose proof (MFind conv dflt sp l u m Em) as X. rewrite Ek in X. exact X.
  - (* FindAlt *)
    destruct (Tab l A) as (t & m & Et & Em & Rt). cbn [hstep]. rewrite Et.
    destruct (find_by_ok hash (h_heap s) t m (fun k => cmp_alt u k =? 0) (conv u) Rt) as (it & -> & C).
    { intros y. rewrite Z.eqb_eq. apply KO. }
    exists s. destruct C as [[Ee Ek]|(id & rest & v & P & Ei & Ek)].
    + exists (HFound None), sp. unfold found. rewrite Ee. split; [reflexivity|].
      split; [|split; [exact R|split; [apply kept_refl|reflexivity]]]. pose proof (MFindAlt conv dflt sp l u m Em) as X. rewrite Ek in X. exact X.
    + exists (HFound (Some (conv u, v))), sp. unfold found. destruct (at_pos_split t it id rest P) as (-> & _).
      rewrite (deref_ok (h_heap s) t it id rest _ P Ei). split; [reflexivity|].
      split; [|split; [exact R|split; [apply kept_refl|reflexivity]]]. pose proof (MFindAlt conv dflt sp l u m Em) as X. rewrite Ek in X. exact X.
  - (* erase *)
    destruct (Tab l A) as (t & m & Et & Em & Rt). cbn [hstep]. rewrite Et. unfold erase_key.
    destruct (find_by_ok hash (h_heap s) t m (fun k => eq_alt k u) (conv u) Rt) as (it & -> & C).
    { intros y. apply KO. }
    destruct C as [[Ee Ek]|(id & rest & v & P & Ei & Ek)].
    + rewrite Ee. cbn [hput].
      assert (F : nframe (h_heap s) (owned (h_tables s l)) (h_heap s) (owned (Some t))) by (rewrite Et; apply nframe_refl).
      eexists _, _, _. split; [reflexivity|]. split.
      { apply MErase with (m := m) (m' := m); auto. split; auto. }
      split; [|split; [|intros l3; apply Sm2, A]].
      * apply put_rel; eauto.
      * eapply kept_other with (x' := Some t); eauto. intros t0 j k' v' Et0 En _. assert (t0 = t) by congruence. subst t0. eauto.
    + destruct (at_pos_split t it id rest P) as (-> & _). destruct (erase_ok hash (h_heap s) t it id rest (proj1 Rt) P) as (t1 & it1 & x & -> & W1 & _ & Ex & E1).
      cbn [hput]. pose proof (tw_nodup _ _ _ (proj1 Rt)) as Nd. rewrite Ex in Nd.
      assert (Is : forall j, In j (ids_of t1) <-> In j (ids_of t) /\ j <> id) by (intros j; rewrite E1, Ex; apply nodup_split_in, Nd).
      assert (F : nframe (h_heap s) (owned (h_tables s l)) (nset (h_heap s) id None) (owned (Some t1))).
      { rewrite Et. apply nframe_del; [cbn; rewrite Ex; apply in_app_iff; right; left; auto|exact Is]. }
      assert (Uq : forall j v', In j (ids_of t) -> h_heap s j = Some (conv u, v') -> j = id).
      { intros j v' Ij Ej. eapply (tw_keys _ _ _ (proj1 Rt)); eauto. rewrite Ex. apply in_app_iff. right; left; auto. }
      eexists _, _, _. split; [reflexivity|]. split.
      { apply MErase with (m := m) (m' := putm cmp m (conv u) None); auto. eapply bound_putm, KO. }
      split; [|split; [|intros l3; apply Sm2, A]].
      * apply put_rel; auto. eexists. split; [reflexivity|]. split; [exact W1|]. intros k v'.
        destruct (key_dec hash cmp conv hash_alt cmp_alt eq_alt KO k (conv u)) as [->|Nk].
        -- rewrite (putm_eq hash cmp conv hash_alt cmp_alt eq_alt KO). split; [discriminate|]. intros (j & Ij & Ej). apply Is in Ij. destruct Ij as [Ij Nj].
           rewrite nset_ne in Ej by exact Nj. exfalso. apply Nj. eauto.
        -- rewrite (putm_ne hash cmp conv hash_alt cmp_alt eq_alt KO) by exact Nk. rewrite (proj2 Rt k v'). split; intros (j & Ij & Ej); exists j.
           ++ assert (Nj : j <> id) by (intros ->; congruence). split; [apply Is; auto|rewrite nset_ne; auto].
           ++ apply Is in Ij. destruct Ij as [Ij Nj]. rewrite nset_ne in Ej by exact Nj. auto.
      * eapply kept_other with (x' := Some t1); eauto. intros t0 j k' v' Et0 [Ij Ej] Kp. assert (t0 = t) by congruence. subst t0.
        assert (Nj : j <> id) by (intros ->; apply (Kp eq_refl); congruence).
        exists t1, v'. split; auto. split; [apply Is; auto|rewrite nset_ne; auto].
  - (* erasing while iterating *)
    destruct (Tab l A) as (t & m & Et & Em & Rt). cbn [hstep]. rewrite Et.
    destruct (begin_ok t (tw_num _ _ _ (proj1 Rt))) as (b & -> & P).
    destruct (eraseif_ok hash p (fuel_of t) (ids_of t) (h_heap s) t b [] (proj1 Rt) eq_refl) as (h' & t' & vs & -> & W' & Ev & F & I' & S'); auto.
    { unfold fuel_of. lia. }
    assert (I2 : forall id, In id (ids_of t') <-> In id (ids_of t) /\ exists kv, h_heap s id = Some kv /\ p kv = false).
    { intros id. rewrite I'. split; intros [X Y]; split; auto. }
    replace (ids_of t) with (owned (h_tables s l)) in F by (rewrite Et; reflexivity).
    eexists _, _, _. split; [reflexivity|]. split.
    { eapply MEraseIf with (m := m); [exact Em| |reflexivity]. eapply lists_walk; eauto. }
    split; [|split; [|intros l3; apply Sm2, A]].
    + apply put_rel; auto. eexists. split; [reflexivity|]. eapply erased_map; eauto.
    + eapply kept_other with (x' := Some t'); eauto. intros t0 j k' v' Et0 [Ij Ej] Kp. assert (t0 = t) by congruence. subst t0.
      assert (J : In j (ids_of t')) by (apply I2; split; [exact Ij|]; exists (k', v'); split; [exact Ej|apply (Kp eq_refl)]).
      exists t', v'. split; auto. split; [exact J|rewrite S'; auto].
  - (* walk *)
    destruct (Tab l A) as (t & m & Et & Em & Rt). cbn [hstep]. rewrite Et.
    destruct (begin_ok t (tw_num _ _ _ (proj1 Rt))) as (b & -> & P).
    destruct (walk_ok hash (h_heap s) t (fuel_of t) (proj1 Rt) (ids_of t) b) as (vs & -> & Ev); auto.
    { unfold fuel_of. lia. }
    exists s, (HAll vs), sp. split; [reflexivity|]. split; [|split; [exact R|split; [apply kept_refl|reflexivity]]].
    eapply MWalk; eauto. eapply lists_walk; eauto.
Qed.

Lemma sane_ext ops : forall a b, (forall l, a l = b l) -> @sane K V U a ops = sane b ops.
Proof.
  induction ops as [|o ops IH]; intros a b E; [reflexivity|]. cbn [sane]. f_equal.
  - destruct o; cbn [alive]; rewrite ?E; reflexivity.
  - apply IH. intros l. destruct o; cbn [lives]; rewrite ?E; reflexivity.
Qed.

Lemma run_ok ops : forall s sp, hrel s sp -> sane (fun l => is_some (h_tables s l)) ops = true ->
  exists s' rs sp', run s ops = Some (s', rs) /\ mrun conv dflt sp ops sp' rs /\ hrel s' sp' /\
    (forall l id k v, node_at s l id k v -> (forall o, In o ops -> keeps l k o) -> exists v', node_at s' l id k v').
Proof.
  induction ops as [|o ops IH]; intros s sp R Sa; cbn [sane hrun] in *.
  - exists s, [], sp. split; [reflexivity|]. split; [constructor|]. split; [exact R|]. eauto.
  - apply andb_true_iff in Sa. destruct Sa as [A Sa]. destruct (step_ok s sp o R A) as (s1 & r & sp1 & -> & M1 & R1 & K1 & L1).
    rewrite (sane_ext ops _ (fun l => is_some (h_tables s1 l))) in Sa by (intros l; symmetry; apply L1).
    destruct (IH s1 sp1 R1 Sa) as (s2 & rs & sp2 & -> & M2 & R2 & K2).
    exists s2, (r :: rs), sp2. split; [reflexivity|]. split; [econstructor; eauto|]. split; [exact R2|].
    intros l id k v N Ks. destruct (K1 l id k v N (Ks o (or_introl eq_refl))) as (v1 & N1).
    apply (K2 l id k v1 N1). intros o' I. apply Ks. right; auto.
Qed.

Lemma rel0 : hrel hsys0 no_maps.
Proof.
  split; cbn.
  - discriminate.
  - reflexivity.
  - intros l1 l2 x _ [].
  - congruence.
  - intros b _. reflexivity.
Qed.

Lemma node_val s sp l id k v m : hrel s sp -> sp l = Some m -> node_at s l id k v -> m k = Some v.
Proof.
  intros R Em (t & Et & I & E). destruct (hr_some _ _ R l t Et) as (m' & Em' & _ & H).
  assert (m' = m) by congruence. subst m'. apply H. eauto.
Qed.
End HashRefine.
