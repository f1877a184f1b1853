(** Proofs about delegates. *)
From Coq Require Import List ZArith Bool Lia.
From Verif Require Import MfpModel MfpSpec MfpProofs DlgModel DlgSpec.
Import ListNotations.
Local Open Scope Z_scope.

Section P.
Variables (PSIZE : Z) (msvc hack : bool) (inv : Z).
Hypothesis Psz : PSIZE = 4 \/ PSIZE = 8.
Hypothesis Inv0 : inv <> 0.
Hypothesis InvW : word PSIZE inv.
Hypothesis InvE : msvc = false -> inv mod 2 = 0.

Let eqf := fn_eqb msvc.

Lemma fn_eqb_null g : fn_eqb msvc g null_fn = (g_ptr g =? 0).
Proof. unfold fn_eqb, null_fn; cbn [g_ptr g_adj]. destruct (g_ptr g =? 0); destruct msvc; reflexivity. Qed.
Lemma fn_eqb_refl g : fn_eqb msvc g g = true.
Proof. unfold fn_eqb. rewrite !Z.eqb_refl, !orb_true_r. reflexivity. Qed.

Lemma word_mod x : word PSIZE (x mod 2 ^ (8 * PSIZE)).
Proof. unfold word. apply Z.mod_pos_bound. destruct Psz as [-> | ->]; lia. Qed.
Lemma mod_word x : word PSIZE x -> x mod 2 ^ (8 * PSIZE) = x.
Proof. unfold word. intros; apply Z.mod_small; lia. Qed.

(** binding works for all pointers that are allowed, and keeps the call *)
Lemma convert_some mem obj m : mfp_ok PSIZE msvc inv m -> word PSIZE obj ->
  exists t g, convert PSIZE msvc mem obj m = Some (t, g) /\ word PSIZE t /\ word PSIZE (g_ptr g) /\ word PSIZE (g_adj g)
    /\ g_ptr g <> inv
    /\ match m with MG h => t = obj /\ g = h
       | MM f vb => ms_this PSIZE mem vb (m_ints f) obj = Some t /\ g = Gmfp (m_code f) 0 end.
Proof.
  intros Hm Hw. destruct m as [h | f vb]; cbn [mfp_ok] in Hm.
  - destruct Hm as (Ms & H1 & H2 & H3). exists obj, h. cbn [convert]. rewrite Ms. repeat split; auto; apply Hw || apply H1 || apply H2.
  - destruct Hm as (Ms & H1 & H2 & H3). destruct f as [code ints]; cbn [m_code m_ints] in *.
    cbn [convert m_code m_ints]. rewrite Ms; cbn [negb].
    assert (W0 : word PSIZE 0) by (unfold word; destruct Psz as [-> | ->]; lia).
    destruct ints as [| d [| ix [| ? ?]]]; cbn [length] in H3; try lia;
      unfold ms_size, m_words; cbn [m_ints List.length].
    + replace ((PSIZE + 4 * Z.of_nat 0 + (PSIZE - 1)) / PSIZE * PSIZE =? PSIZE) with true
        by (destruct Psz as [-> | ->]; reflexivity).
      exists obj, (Gmfp code 0). cbn [g_ptr g_adj]. split; [reflexivity | split; [exact Hw | split; [exact H1 | split; [exact W0 | split; [exact H2 | split; [| reflexivity]]]]]].
      cbn [ms_this option_map]. rewrite mod_word; auto.
    + destruct Psz as [E | E].
      * replace ((PSIZE + 4 * Z.of_nat 1 + (PSIZE - 1)) / PSIZE * PSIZE =? PSIZE) with false by (rewrite E; reflexivity).
        replace ((PSIZE + 4 * Z.of_nat 1 + (PSIZE - 1)) / PSIZE * PSIZE =? PSIZE + 4) with true by (rewrite E; reflexivity).
        exists (wp PSIZE (obj + d)), (Gmfp code 0). cbn [g_ptr g_adj nth].
        split; [reflexivity | split; [apply word_mod | split; [exact H1 | split; [exact W0 | split; [exact H2 | split; reflexivity]]]]].
      * replace ((PSIZE + 4 * Z.of_nat 1 + (PSIZE - 1)) / PSIZE * PSIZE =? PSIZE) with false by (rewrite E; reflexivity).
        replace ((PSIZE + 4 * Z.of_nat 1 + (PSIZE - 1)) / PSIZE * PSIZE =? PSIZE + 4) with false by (rewrite E; reflexivity).
        replace ((PSIZE + 4 * Z.of_nat 1 + (PSIZE - 1)) / PSIZE * PSIZE =? PSIZE + 8) with true by (rewrite E; reflexivity).
        cbn [ms_this option_map]. exists ((obj + d) mod 2 ^ (8 * PSIZE)), (Gmfp code 0). cbn [g_ptr g_adj].
        split; [reflexivity | split; [apply word_mod | split; [exact H1 | split; [exact W0 | split; [exact H2 | split; reflexivity]]]]].
    + replace ((PSIZE + 4 * Z.of_nat 2 + (PSIZE - 1)) / PSIZE * PSIZE =? PSIZE) with false by (destruct Psz as [-> | ->]; reflexivity).
      replace ((PSIZE + 4 * Z.of_nat 2 + (PSIZE - 1)) / PSIZE * PSIZE =? PSIZE + 4) with false by (destruct Psz as [-> | ->]; reflexivity).
      replace ((PSIZE + 4 * Z.of_nat 2 + (PSIZE - 1)) / PSIZE * PSIZE =? PSIZE + 8) with true by (destruct Psz as [-> | ->]; reflexivity).
      cbn [ms_this option_map]. eexists _, (Gmfp code 0). cbn [g_ptr g_adj].
      split; [reflexivity | split; [apply word_mod | split; [exact H1 | split; [exact W0 | split; [exact H2 | split; reflexivity]]]]].
Qed.

Lemma convert_steady mem mem' obj m a : steady PSIZE mem (BindM a m obj mem') ->
  convert PSIZE msvc mem' obj m = convert PSIZE msvc mem obj m.
Proof. destruct m as [g | f vb]; cbn [steady convert]; intros E; [reflexivity | rewrite E; reflexivity]. Qed.

(** *** The invariant *)
Section M.
Variable mem : Z -> Z.

Definition rel (self : option Z) (d : memento) (v : value) : Prop :=
  match v with
  | Nothing => d_fn d = null_fn /\ d_static d = 0 /\ (hack = true -> d_this d = 0)
  | Fun f => f <> 0 /\ word PSIZE f /\ d_fn d = inv_fn inv
             /\ if hack then d_this d = f /\ d_static d = 0
                else d_static d = f /\ (match self with Some a => word PSIZE a /\ d_this d = a | None => True end)
  | Method m obj => mfp_ok PSIZE msvc inv m /\ word PSIZE obj /\ convert PSIZE msvc mem obj m = Some (d_this d, d_fn d)
                    /\ d_static d = 0
  end.
Definition rels (self : bool) (f : Z -> option memento) (g : Z -> option value) : Prop :=
  forall a, match f a, g a with
            | Some d, Some v => rel (if self then Some a else None) d v /\ (self = true -> word PSIZE a)
            | None, None => True
            | _, _ => False
            end.
Definition sim (st : store) (s : values) : Prop := rels true (dels st) (v_dels s) /\ rels false (saves st) (v_saves s).

Lemma rels_upd self f g a d v : rels self f g -> rel (if self then Some a else None) d v -> (self = true -> word PSIZE a) ->
  rels self (upd f a d) (put g a v).
Proof.
  intros H R W x. unfold upd, put. destruct (x =? a) eqn:E; [apply Z.eqb_eq in E; subst; auto |]. apply H.
Qed.

Lemma rel_copy self a d0 x v : (hack = true -> d_static d0 = 0) -> word PSIZE a ->
  rel self x v -> rel (Some a) (copy_from hack a x d0) v.
Proof.
  intros Hs Wa. unfold copy_from, set_memento_from. destruct v as [| f | m obj]; cbn [rel].
  - intros (H1 & H2 & H3). destruct hack.
    + cbn [d_fn d_static d_this]. auto 12.
    + cbn [d_fn d_static d_this]. rewrite H2. cbn. auto 12.
  - intros (H0 & Hw & H1 & H2). destruct hack.
    + cbn [d_fn d_static d_this]. destruct H2; repeat split; auto; apply Hw.
    + destruct H2 as (H2 & _). cbn [d_fn d_static d_this]. rewrite H2. destruct (f =? 0) eqn:E; [apply Z.eqb_eq in E; contradiction|].
      cbn [negb d_fn d_static d_this]. auto 12.
  - intros (H1 & H2 & H3 & H4). destruct hack.
    + cbn [d_fn d_static d_this]. auto 12.
    + cbn [d_fn d_static d_this]. rewrite H4. cbn. auto 12.
Qed.

Lemma rel_static self d v : hack = true -> rel self d v -> d_static d = 0.
Proof.
  destruct v as [| f | m obj]; cbn [rel]; intros Hh H.
  - apply H.
  - rewrite Hh in H. apply H.
  - apply H.
Qed.

Lemma rel_cleared self : rel self cleared Nothing.
Proof. cbn. auto. Qed.

Lemma sim_step st s o : op_ok PSIZE msvc inv o -> steady PSIZE mem o -> sim st s ->
  match step PSIZE msvc hack inv st o, spec_step s o with
  | Some st', Some s' => sim st' s'
  | None, None => True
  | _, _ => False
  end.
Proof.
  intros Ok Sd [SD SS].
  destruct o as [a | a b | a b | a f obj mem' | a f | a | k b | a k]; cbn [step spec_step op_ok] in *.
  - split; cbn [dels saves v_dels v_saves]; [apply rels_upd; auto; apply rel_cleared | exact SS].
  - pose proof (SD b) as Hb. destruct (dels st b) as [x |], (v_dels s b) as [v |]; try contradiction; [| exact I].
    split; cbn [dels saves v_dels v_saves]; [| exact SS]. apply rels_upd; auto. eapply rel_copy; [reflexivity | exact Ok | apply Hb].
  - pose proof (SD a) as Ha. pose proof (SD b) as Hb.
    destruct (dels st a) as [d |], (v_dels s a) as [w |]; try contradiction; [| exact I].
    destruct (dels st b) as [x |], (v_dels s b) as [v |]; try contradiction; [| exact I].
    split; cbn [dels saves v_dels v_saves]; [| exact SS]. apply rels_upd; auto; [| apply Ha].
    eapply rel_copy; [intros Hh; eapply rel_static; [exact Hh | apply Ha] | apply Ha; reflexivity | apply Hb].
  - pose proof (SD a) as Ha. destruct (dels st a) as [d |], (v_dels s a) as [w |]; try contradiction; [| exact I].
    destruct Ok as [Om Ow]. unfold bindmemfunc. rewrite (convert_steady _ _ _ _ _ Sd).
    destruct (convert_some mem obj f Om Ow) as (t & g & E & _). rewrite E.
    split; cbn [dels saves v_dels v_saves]; [| exact SS]. apply rels_upd; auto; [| apply Ha].
    cbn [rel d_fn d_static d_this]. repeat split; auto; try apply Om; try apply Ow.
    destruct hack eqn:Hh; [| reflexivity]. eapply rel_static; [exact Hh | apply Ha].
  - pose proof (SD a) as Ha. destruct (dels st a) as [d |], (v_dels s a) as [w |]; try contradiction; [| exact I].
    split; cbn [dels saves v_dels v_saves]; [| exact SS]. apply rels_upd; auto; [| apply Ha].
    unfold bindstaticfunc, fun_value. destruct (f =? 0) eqn:E.
    + apply Z.eqb_eq in E. subst f. cbn [rel]. destruct hack eqn:Hh; cbn [d_fn d_static d_this]; repeat split; auto.
      * eapply rel_static; [exact Hh | apply Ha].
      * discriminate.
    + apply Z.eqb_neq in E. cbn [rel]. split; [exact E|]. split; [exact Ok|].
      destruct hack eqn:Hh; cbn [d_fn d_static d_this]; repeat split; auto.
      * eapply rel_static; [exact Hh | apply Ha].
      * apply Ha; reflexivity.
      * apply Ha; reflexivity.
  - pose proof (SD a) as Ha. destruct (dels st a) as [d |], (v_dels s a) as [w |]; try contradiction; [| exact I].
    split; cbn [dels saves v_dels v_saves]; [| exact SS]. apply rels_upd; auto; [apply rel_cleared | apply Ha].
  - pose proof (SD b) as Hb. destruct (dels st b) as [x |], (v_dels s b) as [v |]; try contradiction; [| exact I].
    split; cbn [dels saves v_dels v_saves]; [exact SD |]. apply rels_upd; auto; [| discriminate].
    destruct Hb as [Hb _]. unfold set_memento_from. destruct v as [| f | m obj]; cbn [rel] in *;
      destruct hack; cbn [d_fn d_static d_this cleared]; intuition.
  - pose proof (SD a) as Ha. pose proof (SS k) as Hb.
    destruct (dels st a) as [d |], (v_dels s a) as [w |]; try contradiction; [| exact I].
    destruct (saves st k) as [x |], (v_saves s k) as [v |]; try contradiction; [| exact I].
    split; cbn [dels saves v_dels v_saves]; [| exact SS]. apply rels_upd; auto; [| apply Ha].
    eapply rel_copy; [intros Hh; eapply rel_static; [exact Hh | apply Ha] | apply Ha; reflexivity | apply Hb].
Qed.

Lemma sim_run l st s : Forall (op_ok PSIZE msvc inv) l -> Forall (steady PSIZE mem) l -> sim st s ->
  match run PSIZE msvc hack inv st l, spec_run s l with
  | Some st', Some s' => sim st' s'
  | None, None => True
  | _, _ => False
  end.
Proof.
  revert st s. induction l as [| o l IH]; intros st s F G S0; cbn [run spec_run]; [exact S0|].
  inversion F; inversion G; subst. pose proof (sim_step st s o ltac:(assumption) ltac:(assumption) S0) as H.
  destruct (step PSIZE msvc hack inv st o), (spec_step s o); try contradiction; [| exact I].
  apply IH; assumption.
Qed.

Lemma sim_init : sim empty_store no_values.
Proof. split; intros a; exact I. Qed.

Lemma reach l a v : Forall (op_ok PSIZE msvc inv) l -> Forall (steady PSIZE mem) l -> holds l a v ->
  exists st d, run PSIZE msvc hack inv empty_store l = Some st /\ dels st a = Some d /\ rel (Some a) d v /\ word PSIZE a.
Proof.
  intros F G (s & E & Ev). pose proof (sim_run l _ _ F G sim_init) as H. rewrite E in H.
  destruct (run PSIZE msvc hack inv empty_store l) as [st |] eqn:R; [| contradiction].
  destruct H as [H _]. specialize (H a). rewrite Ev in H. destruct (dels st a) as [d |] eqn:D; [| contradiction].
  exists st, d. destruct H. auto.
Qed.

Lemma invoke_rel st a d v : dels st a = Some d -> rel (Some a) d v ->
  invoke PSIZE msvc hack inv st mem a = value_call PSIZE mem v.
Proof.
  intros Hd R. unfold invoke. rewrite Hd. unfold generic_call. rewrite fn_eqb_null.
  destruct v as [| f | m obj]; cbn [rel value_call] in *.
  - destruct R as (-> & _). reflexivity.
  - destruct R as (F0 & Fw & Hf & R). rewrite Hf. cbn [inv_fn g_ptr].
    destruct (inv =? 0) eqn:E; [apply Z.eqb_eq in E; contradiction|].
    assert (G : (if msvc then Some (Direct inv, d_this d) else Some (abi_call PSIZE mem (inv_fn inv) (d_this d)))
                = Some (Direct inv, if msvc then d_this d else (d_this d + 0) mod 2 ^ (8 * PSIZE))).
    { destruct msvc eqn:Ms; [reflexivity|]. unfold abi_call, inv_fn; cbn [g_ptr g_adj]. rewrite (InvE eq_refl). reflexivity. }
    rewrite G, Z.eqb_refl. clear G.
    assert (W : word PSIZE (d_this d)) by (destruct hack; [destruct R as (-> & _); exact Fw | destruct R as (_ & ? & ->); assumption]).
    assert (T : (if msvc then d_this d else (d_this d + 0) mod 2 ^ (8 * PSIZE)) = d_this d).
    { destruct msvc; [reflexivity|]. rewrite Z.add_0_r. apply mod_word; exact W. }
    rewrite T. unfold get_static. destruct hack.
    + destruct R as (-> & _). unfold call_function. destruct (f =? 0) eqn:E0; [apply Z.eqb_eq in E0; contradiction | reflexivity].
    + destruct R as (R1 & _ & R2). rewrite R2, Hd. cbn [option_map]. rewrite R1. unfold call_function.
      destruct (f =? 0) eqn:E0; [apply Z.eqb_eq in E0; contradiction | reflexivity].
  - destruct R as (Om & Ow & C & _). destruct (convert_some mem obj m Om Ow) as (t & g & C' & Wt & Wg & Wj & Ni & Ec).
    rewrite C in C'. injection C' as E1 E2. rewrite E1, E2. clear E1 E2.
    destruct m as [h | f vb]; cbn [direct_call].
    + destruct Ec as (-> & ->). cbn [mfp_ok] in Om. destruct Om as (-> & _). destruct (g_ptr h =? 0); [reflexivity|].
      unfold abi_call. destruct (g_ptr h mod 2 =? 1); [reflexivity|].
      destruct (g_ptr h =? inv) eqn:E; [apply Z.eqb_eq in E; contradiction | reflexivity].
    + destruct Ec as (Et & ->). cbn [mfp_ok] in Om. destruct Om as (-> & _). cbn [g_ptr] in *.
      destruct (m_code f =? 0); [reflexivity|]. rewrite Et. cbn [option_map].
      destruct (m_code f =? inv) eqn:E; [apply Z.eqb_eq in E; contradiction | reflexivity].
Qed.

(** *** Comparisons *)
Lemma real_fn self d m obj : rel self d (Method m obj) -> real (Method m obj) -> g_ptr (d_fn d) <> 0.
Proof.
  cbn [rel real]. intros (Om & Ow & C & _) Hr. destruct (convert_some mem obj m Om Ow) as (t & g & C' & _ & _ & _ & _ & Ec).
  rewrite C in C'. injection C' as E1 E2. rewrite E2. destruct m; [destruct Ec as (_ & ->) | destruct Ec as (_ & ->)]; exact Hr.
Qed.
Lemma method_fn self d m obj : rel self d (Method m obj) -> g_ptr (d_fn d) <> inv.
Proof.
  cbn [rel]. intros (Om & Ow & C & _). destruct (convert_some mem obj m Om Ow) as (t & g & C' & _ & _ & _ & Ni & _).
  rewrite C in C'. injection C' as E1 E2. rewrite E2. exact Ni.
Qed.

Lemma is_equal_hack d x : hack = true ->
  is_equal msvc hack d x = true <-> d_this d = d_this x /\ g_ptr (d_fn d) = g_ptr (d_fn x)
                                   /\ (msvc = true \/ g_ptr (d_fn d) = 0 \/ g_adj (d_fn d) = g_adj (d_fn x)).
Proof.
  intros ->. unfold is_equal, fn_eqb. rewrite !andb_true_iff, !orb_true_iff, !Z.eqb_eq. tauto.
Qed.

Lemma equal_call st a b d x v w : hack = true -> dels st a = Some d -> dels st b = Some x ->
  rel (Some a) d v -> rel (Some b) x w -> real v -> real w ->
  is_equal msvc hack d x = true -> value_call PSIZE mem v = value_call PSIZE mem w.
Proof.
  intros Hh Da Db Ra Rb Va Vb E. apply is_equal_hack in E; [| exact Hh]. destruct E as (E1 & E2 & E3).
  rewrite <- (invoke_rel st a d v Da Ra), <- (invoke_rel st b x w Db Rb).
  unfold invoke. rewrite Da, Db. unfold generic_call. rewrite !fn_eqb_null, <- E2.
  destruct (g_ptr (d_fn d) =? 0) eqn:E0; [reflexivity|]. apply Z.eqb_neq in E0.
  assert (G : (if msvc then Some (Direct (g_ptr (d_fn d)), d_this d) else Some (abi_call PSIZE mem (d_fn d) (d_this d)))
            = (if msvc then Some (Direct (g_ptr (d_fn d)), d_this x) else Some (abi_call PSIZE mem (d_fn x) (d_this x)))).
  { destruct msvc; [rewrite E1; reflexivity|]. destruct E3 as [? | [? | E3]]; [discriminate | contradiction |].
    unfold abi_call. rewrite E1, E2, E3. reflexivity. }
  rewrite G. clear G. destruct (if msvc then _ else _) as [[[s | c] this] |]; try reflexivity.
Qed.

Lemma equal_value d x a b v : hack = true -> rel (Some a) d v -> rel (Some b) x v -> is_equal msvc hack d x = true.
Proof.
  intros Hh Ra Rb. apply is_equal_hack; [exact Hh|]. destruct v as [| f | m obj]; cbn [rel] in *; rewrite ?Hh in *.
  - destruct Ra as (-> & _ & H1), Rb as (-> & _ & H2). rewrite H1, H2; auto.
  - destruct Ra as (_ & _ & -> & -> & _), Rb as (_ & _ & -> & -> & _). auto.
  - destruct Ra as (_ & _ & C & _), Rb as (_ & _ & C' & _). rewrite C in C'. injection C' as E1 E2. rewrite E1, E2. auto.
Qed.

Lemma equal_msvc d x a b v w : hack = true -> msvc = true -> rel (Some a) d v -> rel (Some b) x w -> real v -> real w ->
  value_call PSIZE mem v = value_call PSIZE mem w -> is_equal msvc hack d x = true.
Proof.
  intros Hh Hm Ra Rb Va Vb E. apply is_equal_hack; [exact Hh|].
  assert (K : forall m (obj : Z), mfp_ok PSIZE msvc inv m -> exists f vb, m = MM f vb).
  { intros m obj. destruct m as [g | f vb]; cbn [mfp_ok]; [rewrite Hm; intros (? & _); discriminate | eauto]. }
  assert (N : forall self d m obj, rel self d (Method m obj) -> real (Method m obj) -> value_call PSIZE mem (Method m obj)
                = Some (CallMethod (Direct (g_ptr (d_fn d))) (d_this d))).
  { intros self d' m obj R Hr. cbn [rel] in R. destruct R as (Om & Ow & C & _).
    destruct (convert_some mem obj m Om Ow) as (t & g & C' & _ & _ & _ & _ & Ec). rewrite C in C'. injection C' as E1 E2.
    rewrite E1, E2. destruct (K m obj Om) as (f & vb & ->). destruct Ec as (Et & ->). cbn [value_call direct_call real g_ptr] in *.
    destruct (m_code f =? 0) eqn:E0; [apply Z.eqb_eq in E0; contradiction|]. rewrite Et. reflexivity. }
  destruct v as [| f | m obj].
  - destruct w as [| g | m' obj'].
    + cbn [rel] in *. destruct Ra as (-> & _ & H1), Rb as (-> & _ & H2). rewrite H1, H2; auto.
    + discriminate.
    + rewrite (N _ _ _ _ Rb Vb) in E. discriminate.
  - destruct w as [| g | m' obj'].
    + discriminate.
    + cbn [value_call] in E. injection E as ->. cbn [rel] in *. rewrite Hh in *.
      destruct Ra as (_ & _ & -> & -> & _), Rb as (_ & _ & -> & -> & _). auto.
    + rewrite (N _ _ _ _ Rb Vb) in E. discriminate.
  - rewrite (N _ _ _ _ Ra Va) in E. destruct w as [| g | m' obj'].
    + discriminate.
    + discriminate.
    + rewrite (N _ _ _ _ Rb Vb) in E. injection E as E1 E2. rewrite E1, E2. auto.
Qed.

Lemma empty_value d a v : hack = true -> rel (Some a) d v -> real v -> is_empty msvc d = true <-> v = Nothing.
Proof.
  intros Hh R Hr. unfold is_empty. rewrite fn_eqb_null, andb_true_iff, !Z.eqb_eq. destruct v as [| f | m obj].
  - cbn [rel] in R. destruct R as (-> & _ & H). rewrite H; [|exact Hh]. cbn. tauto.
  - cbn [rel] in R. destruct R as (_ & _ & -> & _). cbn [inv_fn g_ptr]. split; [intros (_ & ?); contradiction | discriminate].
  - split; [intros (_ & H); exfalso; exact (real_fn _ _ _ _ R Hr H) | discriminate].
Qed.

Lemma safe_equal_iff d x a b v w : hack = false -> rel (Some a) d v -> rel (Some b) x w -> real v -> real w ->
  is_equal msvc hack d x = true <-> safe_same a v b w.
Proof.
  intros Hh Ra Rb Va Vb. unfold is_equal. rewrite Hh.
  assert (Q : forall P1 P2 P3, (if negb P1 then false else if negb P2 then false else P3) = true <-> P1 = true /\ P2 = true /\ P3 = true).
  { intros [] [] []; cbn; intuition discriminate. }
  rewrite Q. clear Q. unfold fn_eqb.
  destruct v as [| f | m obj], w as [| g | m' obj']; unfold safe_same.
  - cbn [rel] in *. destruct Ra as (-> & -> & _), Rb as (-> & -> & _). cbn. rewrite orb_true_r. tauto.
  - cbn [rel] in *. destruct Ra as (-> & _), Rb as (_ & _ & -> & _). cbn [null_fn inv_fn g_ptr]. rewrite andb_true_iff, !Z.eqb_eq.
    split; [intros ((? & _) & _); congruence | contradiction].
  - split; [| contradiction]. intros (H & _). rewrite andb_true_iff, !Z.eqb_eq in H. destruct H as (H & _).
    cbn [rel] in Ra. destruct Ra as (E & _). rewrite E in H. cbn in H. symmetry in H. exact (real_fn _ _ _ _ Rb Vb H).
  - cbn [rel] in *. destruct Ra as (_ & _ & -> & _), Rb as (-> & _). cbn [null_fn inv_fn g_ptr]. rewrite andb_true_iff, !Z.eqb_eq.
    split; [intros ((? & _) & _); congruence | contradiction].
  - cbn [rel] in *. rewrite Hh in *. destruct Ra as (F0 & _ & -> & -> & _ & ->), Rb as (_ & _ & -> & -> & _ & ->).
    cbn [inv_fn g_ptr g_adj]. rewrite !Z.eqb_refl, !orb_true_r. destruct (f =? 0) eqn:E; [apply Z.eqb_eq in E; contradiction|].
    cbn [negb andb]. rewrite !Z.eqb_eq. tauto.
  - split; [| contradiction]. intros (H & _). rewrite andb_true_iff, !Z.eqb_eq in H. destruct H as (H & _).
    cbn [rel] in Ra. destruct Ra as (_ & _ & E & _). rewrite E in H. cbn in H. symmetry in H. exact (method_fn _ _ _ _ Rb H).
  - split; [| contradiction]. intros (H & _). rewrite andb_true_iff, !Z.eqb_eq in H. destruct H as (H & _).
    cbn [rel] in Rb. destruct Rb as (E & _). rewrite E in H. cbn in H. exact (real_fn _ _ _ _ Ra Va H).
  - split; [| contradiction]. intros (H & _). rewrite andb_true_iff, !Z.eqb_eq in H. destruct H as (H & _).
    cbn [rel] in Rb. destruct Rb as (_ & _ & E & _). rewrite E in H. cbn in H. exact (method_fn _ _ _ _ Ra H).
  - pose proof (real_fn _ _ _ _ Ra Va) as Na. cbn [rel] in Ra, Rb. destruct Ra as (Om & Ow & C & S1), Rb as (Om' & Ow' & C' & S2).
    rewrite S1, S2. cbn [Z.eqb negb].
    destruct (convert_some mem obj m Om Ow) as (t & g & Cg & _ & _ & _ & _ & Ec). rewrite C in Cg. injection Cg as E1 E2.
    destruct (convert_some mem obj' m' Om' Ow') as (t' & g' & Cg' & _ & _ & _ & _ & Ec'). rewrite C' in Cg'. injection Cg' as E1' E2'.
    rewrite E2 in *. rewrite E2' in *. rewrite andb_true_iff, !orb_true_iff, !Z.eqb_eq.
    destruct m as [h | f vb], m' as [h' | f' vb']; cbn [mfp_ok same_function] in *.
    + destruct Ec as (_ & ->), Ec' as (_ & ->). destruct Om as (-> & _). split; [intros ((? & [[? | ?] | ?]) & _); [discriminate | contradiction | auto] | tauto].
    + destruct Om as (? & _), Om' as (? & _); congruence.
    + destruct Om as (? & _), Om' as (? & _); congruence.
    + destruct Ec as (_ & ->), Ec' as (_ & ->). cbn [g_ptr g_adj]. tauto.
Qed.

(** *** The order *)
Lemma memcmp_irrefl l : memcmp_lt l l = false.
Proof. induction l as [| x l IH]; cbn [memcmp_lt]; [reflexivity|]. rewrite Z.eqb_refl. exact IH. Qed.
Lemma memcmp_trans x : forall y z, memcmp_lt x y = true -> memcmp_lt y z = true -> memcmp_lt x z = true.
Proof.
  induction x as [| a x IH]; intros [| b y] [| c z]; cbn [memcmp_lt]; try discriminate.
  destruct (a =? b) eqn:E1, (b =? c) eqn:E2; intros H1 H2;
    (first [apply Z.eqb_eq in E1 | apply Z.eqb_neq in E1]); (first [apply Z.eqb_eq in E2 | apply Z.eqb_neq in E2]);
    try apply Z.ltb_lt in H1; try apply Z.ltb_lt in H2; subst.
  - rewrite Z.eqb_refl. eauto.
  - replace (b =? c) with false by (symmetry; apply Z.eqb_neq; assumption). apply Z.ltb_lt; assumption.
  - replace (a =? c) with false by (symmetry; apply Z.eqb_neq; assumption). apply Z.ltb_lt; assumption.
  - replace (a =? c) with false by (symmetry; apply Z.eqb_neq; lia). apply Z.ltb_lt; lia.
Qed.
Lemma memcmp_total x : forall y, length x = length y -> memcmp_lt x y = false -> memcmp_lt y x = false -> x = y.
Proof.
  induction x as [| a x IH]; intros [| b y] L; cbn [memcmp_lt length] in *; try discriminate; [reflexivity|].
  rewrite (Z.eqb_sym b a). destruct (a =? b) eqn:E; intros H1 H2.
  - apply Z.eqb_eq in E. subst. f_equal. apply IH; congruence.
  - apply Z.eqb_neq in E. apply Z.ltb_ge in H1. apply Z.ltb_ge in H2. lia.
Qed.
Lemma le_bytes_length n : forall v, length (le_bytes n v) = n.
Proof. induction n; intros; cbn [le_bytes length]; auto. Qed.
Lemma le_bytes_inj n : forall v w, 0 <= v < 256 ^ Z.of_nat n -> 0 <= w < 256 ^ Z.of_nat n -> le_bytes n v = le_bytes n w -> v = w.
Proof.
  induction n as [| n IH]; intros v w Hv Hw E.
  - change (256 ^ Z.of_nat 0) with 1 in *. lia.
  - cbn [le_bytes] in E. injection E as E1 E2. rewrite Nat2Z.inj_succ, Z.pow_succ_r in Hv, Hw by lia.
    apply IH in E2; [| split; [apply Z.div_pos; lia | apply Z.div_lt_upper_bound; lia] | split; [apply Z.div_pos; lia | apply Z.div_lt_upper_bound; lia]].
    rewrite (Z.div_mod v 256), (Z.div_mod w 256) by lia. rewrite E1, E2. reflexivity.
Qed.
Lemma word_bytes v : word PSIZE v -> 0 <= v < 256 ^ Z.of_nat (Z.to_nat PSIZE).
Proof.
  unfold word. destruct Psz as [-> | ->].
  - change (256 ^ Z.of_nat (Z.to_nat 4)) with (2 ^ (8 * 4)). auto.
  - change (256 ^ Z.of_nat (Z.to_nat 8)) with (2 ^ (8 * 8)). auto.
Qed.
Lemma fn_bytes_inj x y : word PSIZE (g_ptr x) -> word PSIZE (g_ptr y) -> word PSIZE (g_adj x) -> word PSIZE (g_adj y) ->
  fn_bytes PSIZE msvc x = fn_bytes PSIZE msvc y -> g_ptr x = g_ptr y /\ (msvc = true \/ g_adj x = g_adj y).
Proof.
  intros W1 W2 W3 W4. unfold fn_bytes. intros E.
  assert (E1 : le_bytes (Z.to_nat PSIZE) (g_ptr x) = le_bytes (Z.to_nat PSIZE) (g_ptr y)).
  { assert (F := f_equal (firstn (Z.to_nat PSIZE)) E).
    rewrite !firstn_app, !le_bytes_length, Nat.sub_diag in F.
    rewrite (firstn_all2 (le_bytes (Z.to_nat PSIZE) (g_ptr x))) in F by (rewrite le_bytes_length; lia).
    rewrite (firstn_all2 (le_bytes (Z.to_nat PSIZE) (g_ptr y))) in F by (rewrite le_bytes_length; lia).
    cbn [firstn] in F. rewrite !app_nil_r in F. exact F. }
  rewrite E1 in E. apply app_inv_head in E. split.
  - apply le_bytes_inj in E1; auto using word_bytes.
  - destruct msvc; [auto|]. right. apply le_bytes_inj in E; auto using word_bytes.
Qed.
Lemma fn_bytes_length x y : length (fn_bytes PSIZE msvc x) = length (fn_bytes PSIZE msvc y).
Proof. unfold fn_bytes. rewrite !app_length, !le_bytes_length. destruct msvc; [reflexivity|]. rewrite !le_bytes_length. reflexivity. Qed.

Lemma less_irrefl d : is_less PSIZE msvc hack d d = false.
Proof.
  unfold is_less. rewrite memcmp_irrefl, !Z.eqb_refl, !Z.ltb_irrefl. cbn. destruct (negb hack && _); reflexivity.
Qed.
Lemma less_trans d e f : is_less PSIZE msvc hack d e = true -> is_less PSIZE msvc hack e f = true ->
  0 <= d_static d -> 0 <= d_static e -> 0 <= d_static f -> is_less PSIZE msvc hack d f = true.
Proof.
  unfold is_less. intros H1 H2 Sd Se Sf.
  assert (L : forall x y z p q r,
    (if negb (x =? y) then x <? y else memcmp_lt p q) = true -> (if negb (y =? z) then y <? z else memcmp_lt q r) = true ->
    (if negb (x =? z) then x <? z else memcmp_lt p r) = true).
  { intros x y z p q r. destruct (x =? y) eqn:E1, (y =? z) eqn:E2; cbn [negb]; intros A B;
    (first [apply Z.eqb_eq in E1 | apply Z.eqb_neq in E1]); (first [apply Z.eqb_eq in E2 | apply Z.eqb_neq in E2]);
    try apply Z.ltb_lt in A; try apply Z.ltb_lt in B; subst.
    - rewrite Z.eqb_refl. cbn. eapply memcmp_trans; eauto.
    - replace (y =? z) with false by (symmetry; apply Z.eqb_neq; assumption). apply Z.ltb_lt; assumption.
    - replace (x =? z) with false by (symmetry; apply Z.eqb_neq; assumption). apply Z.ltb_lt; assumption.
    - replace (x =? z) with false by (symmetry; apply Z.eqb_neq; lia). apply Z.ltb_lt; lia. }
  destruct hack; cbn [negb andb] in *; [eapply L; eauto|].
  destruct (d_static d =? 0) eqn:D, (d_static e =? 0) eqn:E, (d_static f =? 0) eqn:F; cbn [negb orb andb] in *;
    rewrite ?Z.eqb_eq, ?Z.eqb_neq in *; try (apply Z.ltb_lt in H1); try (apply Z.ltb_lt in H2); try (apply Z.ltb_lt); try lia.
  eapply L; eauto.
Qed.

Lemma rel_words self d v : rel self d v -> hack = true -> word PSIZE (d_this d) /\ word PSIZE (g_ptr (d_fn d)) /\ word PSIZE (g_adj (d_fn d)).
Proof.
  assert (W0 : word PSIZE 0) by (unfold word; destruct Psz as [-> | ->]; lia).
  intros R Hh. destruct v as [| f | m obj]; cbn [rel] in R.
  - destruct R as (-> & _ & H). rewrite H by exact Hh. auto.
  - rewrite Hh in R. destruct R as (_ & Wf & -> & -> & _). auto.
  - destruct R as (Om & Ow & C & _). destruct (convert_some mem obj m Om Ow) as (t & g & C' & Wt & W1 & W2 & _).
    rewrite C in C'. injection C' as -> ->. auto.
Qed.
Lemma less_total d x a b v w : hack = true -> rel (Some a) d v -> rel (Some b) x w ->
  is_less PSIZE msvc hack d x = false -> is_less PSIZE msvc hack x d = false -> is_equal msvc hack d x = true.
Proof.
  intros Hh Ra Rb. apply rel_words in Ra; [| exact Hh]. apply rel_words in Rb; [| exact Hh].
  destruct Ra as (_ & A1 & A2), Rb as (_ & B1 & B2). unfold is_less. rewrite Hh. cbn [negb andb].
  rewrite (Z.eqb_sym (d_this x)). destruct (d_this d =? d_this x) eqn:E; cbn [negb]; intros H1 H2.
  - apply Z.eqb_eq in E. pose proof (memcmp_total _ _ (fn_bytes_length _ _) H1 H2) as Eb.
    apply fn_bytes_inj in Eb; auto. assert (Q := proj2 (is_equal_hack d x Hh)). rewrite Hh in Q. apply Q. tauto.
  - apply Z.eqb_neq in E. apply Z.ltb_ge in H1. apply Z.ltb_ge in H2. lia.
Qed.
Lemma less_not_equal d x a b v w : hack = true -> rel (Some a) d v -> rel (Some b) x w -> real v -> real w ->
  is_less PSIZE msvc hack d x = true -> is_equal msvc hack d x = false.
Proof.
  intros Hh Ra Rb Va Vb L. destruct (is_equal msvc hack d x) eqn:E; [| reflexivity]. exfalso.
  apply is_equal_hack in E; [| exact Hh]. destruct E as (E1 & E2 & E3).
  assert (E4 : msvc = true \/ g_adj (d_fn d) = g_adj (d_fn x)).
  { destruct E3 as [? | [Z0 | ?]]; auto. right. destruct v as [| f | m obj].
    - cbn [rel] in Ra. destruct Ra as (Hd & _). rewrite Hd in *. cbn in *. destruct w as [| g | m' obj'].
      + cbn [rel] in Rb. destruct Rb as (-> & _). reflexivity.
      + cbn [rel] in Rb. destruct Rb as (_ & _ & Hx & _). rewrite Hx. reflexivity.
      + exfalso. apply (real_fn _ _ _ _ Rb Vb). symmetry. exact E2.
    - cbn [rel] in Ra. destruct Ra as (_ & _ & Hd & _). rewrite Hd in Z0. cbn in Z0. contradiction.
    - exfalso. exact (real_fn _ _ _ _ Ra Va Z0). }
  unfold is_less in L. rewrite Hh in L. cbn [negb andb] in L. rewrite E1, Z.eqb_refl in L. cbn [negb] in L.
  unfold fn_bytes in L. rewrite E2 in L. destruct msvc; [rewrite memcmp_irrefl in L; discriminate|].
  destruct E4 as [? | E4]; [discriminate|]. rewrite E4, memcmp_irrefl in L. discriminate.
Qed.
End M.
End P.
