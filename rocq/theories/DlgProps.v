(** C80: delegates are values. *)
From Coq Require Import List ZArith Bool Lia.
From Verif Require Import MfpModel MfpSpec MfpProofs DlgModel DlgSpec DlgProofs.
Import ListNotations.
Local Open Scope Z_scope.

(** A program has a meaning exactly if it only uses delegates and mementos that exist. *)
Theorem C80_defined : forall PSIZE msvc hack inv l, machine PSIZE msvc inv -> Forall (op_ok PSIZE msvc inv) l ->
  (run PSIZE msvc hack inv empty_store l = None <-> spec_run no_values l = None).
Proof.
  intros PSIZE msvc hack inv l (Hp & H0 & Hw & He) F.
  assert (G : forall l st s, Forall (op_ok PSIZE msvc inv) l ->
    (forall a, dels st a = None <-> v_dels s a = None) -> (forall a, saves st a = None <-> v_saves s a = None) ->
    (run PSIZE msvc hack inv st l = None <-> spec_run s l = None)).
  2: { apply G; [exact F | |]; intros a; cbn; tauto. }
  clear l F. assert (U : forall (f : Z -> option memento) (g : Z -> option value) k d v,
    (forall a, f a = None <-> g a = None) -> forall a, upd f k d a = None <-> put g k v a = None).
  { intros f g k d v H a. unfold upd, put. destruct (a =? k); [split; discriminate | apply H]. }
  assert (C : forall (f : Z -> option memento) (g : Z -> option value) a, (forall a, f a = None <-> g a = None) ->
    (exists d v, f a = Some d /\ g a = Some v) \/ (f a = None /\ g a = None)).
  { intros f g a H. specialize (H a). destruct (f a), (g a); [eauto | exfalso | exfalso | auto]; destruct H as [H H']; [specialize (H' eq_refl) | specialize (H eq_refl)]; discriminate. }
  induction l as [| o l IH]; intros st s F D S0; cbn [run spec_run]; [split; discriminate|].
  inversion F as [| ? ? Ho Fl]; subst.
  destruct o as [a | a b | a b | a f obj mem' | a f | a | k b | a k]; cbn [step spec_step op_ok] in *.
  - apply IH; cbn [dels saves v_dels v_saves]; auto.
  - destruct (C _ _ b D) as [(x & v & E1 & E2) | (E1 & E2)]; rewrite E1, E2; [| tauto].
    apply IH; cbn [dels saves v_dels v_saves]; auto.
  - destruct (C _ _ a D) as [(x & v & E1 & E2) | (E1 & E2)]; rewrite E1, E2; [| tauto].
    destruct (C _ _ b D) as [(x' & v' & E1' & E2') | (E1' & E2')]; rewrite E1', E2'; [| tauto].
    apply IH; cbn [dels saves v_dels v_saves]; auto.
  - destruct (C _ _ a D) as [(x & v & E1 & E2) | (E1 & E2)]; rewrite E1, E2; [| tauto].
    destruct Ho as [Om Ow]. unfold bindmemfunc.
    destruct (convert_some PSIZE msvc inv Hp Hw mem' obj f Om Ow) as (t & g & E & _). rewrite E.
    apply IH; cbn [dels saves v_dels v_saves]; auto.
  - destruct (C _ _ a D) as [(x & v & E1 & E2) | (E1 & E2)]; rewrite E1, E2; [| tauto].
    apply IH; cbn [dels saves v_dels v_saves]; auto.
  - destruct (C _ _ a D) as [(x & v & E1 & E2) | (E1 & E2)]; rewrite E1, E2; [| tauto].
    apply IH; cbn [dels saves v_dels v_saves]; auto.
  - destruct (C _ _ b D) as [(x & v & E1 & E2) | (E1 & E2)]; rewrite E1, E2; [| tauto].
    apply IH; cbn [dels saves v_dels v_saves]; auto.
  - destruct (C _ _ a D) as [(x & v & E1 & E2) | (E1 & E2)]; rewrite E1, E2; [| tauto].
    destruct (C _ _ k S0) as [(x' & v' & E1' & E2') | (E1' & E2')]; rewrite E1', E2'; [| tauto].
    apply IH; cbn [dels saves v_dels v_saves]; auto.
Qed.
Print Assumptions C80_defined.

(** Calling a delegate makes the call it was last given, however often it was copied: the function,
    or the method on the object as the compiler would call it directly; both versions of the header. *)
Theorem C80_invoke : forall PSIZE msvc hack inv mem l st a v, machine PSIZE msvc inv -> program_ok PSIZE msvc inv mem l ->
  run PSIZE msvc hack inv empty_store l = Some st -> holds l a v ->
  invoke PSIZE msvc hack inv st mem a = value_call PSIZE mem v.
Proof.
  intros PSIZE msvc hack inv mem l st a v (Hp & H0 & Hw & He) (F & G) R H.
  destruct (reach PSIZE msvc hack inv Hp Hw mem l a v F G H) as (st' & d & R' & D & Rl & W).
  rewrite R in R'. injection R' as <-. eapply invoke_rel; eauto.
Qed.
Print Assumptions C80_invoke.

Section Two.
(** two delegates after a program *)
Variables (PSIZE : Z) (msvc : bool) (inv : Z) (mem : Z -> Z) (l : list op) (a b : Z) (v w : value).
Hypotheses (Hm : machine PSIZE msvc inv) (Hl : program_ok PSIZE msvc inv mem l)
  (Ha : holds l a v) (Hb : holds l b w) (Va : real v) (Vb : real w).

(** Equal delegates make the same call. *)
Theorem C80_equal_sound : forall st, run PSIZE msvc true inv empty_store l = Some st ->
  equal msvc true st a b = Some true -> value_call PSIZE mem v = value_call PSIZE mem w.
Proof.
  intros st R E. destruct Hm as (Hp & H0 & Hw & He), Hl as (F & G).
  destruct (reach PSIZE msvc true inv Hp Hw mem l a v F G Ha) as (s1 & d & R1 & D1 & Rl1 & _).
  destruct (reach PSIZE msvc true inv Hp Hw mem l b w F G Hb) as (s2 & x & R2 & D2 & Rl2 & _).
  rewrite R in R1, R2. injection R1 as <-. injection R2 as <-. unfold equal in E. rewrite D1, D2 in E. injection E as E.
  eapply (equal_call PSIZE msvc true inv Hp H0 Hw He mem st a b d x v w); eauto.
Qed.

(** Delegates with the same value are equal: a hook is removed with the handler it was added with. *)
Theorem C80_equal_value : forall st, run PSIZE msvc true inv empty_store l = Some st -> v = w ->
  equal msvc true st a b = Some true.
Proof.
  intros st R E. destruct Hm as (Hp & H0 & Hw & He), Hl as (F & G).
  destruct (reach PSIZE msvc true inv Hp Hw mem l a v F G Ha) as (s1 & d & R1 & D1 & Rl1 & _).
  destruct (reach PSIZE msvc true inv Hp Hw mem l b w F G Hb) as (s2 & x & R2 & D2 & Rl2 & _).
  rewrite R in R1, R2. injection R1 as <-. injection R2 as <-. unfold equal. rewrite D1, D2. f_equal.
  rewrite <- E in Rl2. eapply (equal_value PSIZE msvc true inv Hp mem d x a b v); eauto.
Qed.

(** MSVC: equal exactly if they make the same call. *)
Theorem C80_equal_msvc : forall st, run PSIZE msvc true inv empty_store l = Some st -> msvc = true ->
  (equal msvc true st a b = Some true <-> value_call PSIZE mem v = value_call PSIZE mem w).
Proof.
  intros st R Ms. split; [apply C80_equal_sound; exact R|]. intros E. destruct Hm as (Hp & H0 & Hw & He), Hl as (F & G).
  destruct (reach PSIZE msvc true inv Hp Hw mem l a v F G Ha) as (s1 & d & R1 & D1 & Rl1 & _).
  destruct (reach PSIZE msvc true inv Hp Hw mem l b w F G Hb) as (s2 & x & R2 & D2 & Rl2 & _).
  rewrite R in R1, R2. injection R1 as <-. injection R2 as <-. unfold equal. rewrite D1, D2. f_equal.
  eapply (equal_msvc PSIZE msvc true inv Hp Hw mem d x a b v w); eauto.
Qed.

(** GCC: equal exactly if they hold the same function, or the same pointer and object. *)
Theorem C80_equal_gcc : forall st, run PSIZE msvc true inv empty_store l = Some st -> msvc = false ->
  (equal msvc true st a b = Some true <-> v = w).
Proof.
  intros st R Ms. split; [| apply C80_equal_value; exact R]. intros E. destruct Hm as (Hp & H0 & Hw & He), Hl as (F & G).
  destruct (reach PSIZE msvc true inv Hp Hw mem l a v F G Ha) as (s1 & d & R1 & D1 & Rl1 & _).
  destruct (reach PSIZE msvc true inv Hp Hw mem l b w F G Hb) as (s2 & x & R2 & D2 & Rl2 & _).
  rewrite R in R1, R2. injection R1 as <-. injection R2 as <-. unfold equal in E. rewrite D1, D2 in E. injection E as E.
  apply (is_equal_hack PSIZE msvc true Hp mem d x eq_refl) in E. destruct E as (E1 & E2 & E3).
  assert (K : forall m obj d b, rel PSIZE msvc true inv mem b d (Method m obj) -> m = MG (d_fn d) /\ obj = d_this d).
  { intros m obj d' b' (Om & _ & C & _). destruct m as [g | f vb]; cbn [mfp_ok convert] in *.
    - rewrite Ms in C. injection C as -> ->. auto.
    - destruct Om as (? & _); congruence. }
  destruct v as [| f | m obj], w as [| g | m' obj'].
  - reflexivity.
  - cbn [rel] in Rl1, Rl2. destruct Rl1 as (Q & _), Rl2 as (_ & _ & Q' & _). rewrite Q, Q' in E2. cbn in E2. congruence.
  - exfalso. cbn [rel] in Rl1. destruct Rl1 as (Q & _). rewrite Q in E2. symmetry in E2.
    exact (real_fn PSIZE msvc true inv Hp Hw mem _ _ _ _ Rl2 Vb E2).
  - cbn [rel] in Rl1, Rl2. destruct Rl1 as (_ & _ & Q & _), Rl2 as (Q' & _). rewrite Q, Q' in E2. cbn in E2. congruence.
  - cbn [rel] in Rl1, Rl2. destruct Rl1 as (_ & _ & _ & Q & _), Rl2 as (_ & _ & _ & Q' & _). congruence.
  - exfalso. cbn [rel] in Rl1. destruct Rl1 as (_ & _ & Q & _). rewrite Q in E2. symmetry in E2.
    exact (method_fn PSIZE msvc true inv Hp Hw mem _ _ _ _ Rl2 E2).
  - exfalso. cbn [rel] in Rl2. destruct Rl2 as (Q & _). rewrite Q in E2.
    exact (real_fn PSIZE msvc true inv Hp Hw mem _ _ _ _ Rl1 Va E2).
  - exfalso. cbn [rel] in Rl2. destruct Rl2 as (_ & _ & Q & _). rewrite Q in E2.
    exact (method_fn PSIZE msvc true inv Hp Hw mem _ _ _ _ Rl1 E2).
  - pose proof (real_fn PSIZE msvc true inv Hp Hw mem _ _ _ _ Rl1 Va) as N.
    destruct (K _ _ _ _ Rl1) as (-> & ->), (K _ _ _ _ Rl2) as (-> & ->). rewrite E1. f_equal. f_equal.
    destruct E3 as [? | [? | E3]]; [congruence | contradiction |]. destruct (d_fn d), (d_fn x); cbn in *; congruence.
Qed.

(** [<] is a strict order, and exactly one of [a < b], [b < a], [a == b] holds *)
Theorem C80_order : forall st, run PSIZE msvc true inv empty_store l = Some st ->
  (less PSIZE msvc true st a b = Some true /\ less PSIZE msvc true st b a = Some false /\ equal msvc true st a b = Some false)
  \/ (less PSIZE msvc true st a b = Some false /\ less PSIZE msvc true st b a = Some true /\ equal msvc true st a b = Some false)
  \/ (less PSIZE msvc true st a b = Some false /\ less PSIZE msvc true st b a = Some false /\ equal msvc true st a b = Some true).
Proof.
  intros st R. destruct Hm as (Hp & H0 & Hw & He), Hl as (F & G).
  destruct (reach PSIZE msvc true inv Hp Hw mem l a v F G Ha) as (s1 & d & R1 & D1 & Rl1 & _).
  destruct (reach PSIZE msvc true inv Hp Hw mem l b w F G Hb) as (s2 & x & R2 & D2 & Rl2 & _).
  rewrite R in R1, R2. injection R1 as <-. injection R2 as <-. unfold less, equal. rewrite D1, D2.
  destruct (is_less PSIZE msvc true d x) eqn:L1, (is_less PSIZE msvc true x d) eqn:L2.
  - exfalso. pose proof (rel_static PSIZE msvc true inv mem _ _ _ eq_refl Rl1) as S1.
    pose proof (rel_static PSIZE msvc true inv mem _ _ _ eq_refl Rl2) as S2.
    pose proof (less_trans PSIZE msvc true d x d L1 L2 ltac:(lia) ltac:(lia) ltac:(lia)) as T.
    rewrite less_irrefl in T. discriminate.
  - left. rewrite (less_not_equal PSIZE msvc true inv Hp H0 Hw He mem d x a b v w); auto.
  - right. left. assert (Q : is_equal msvc true x d = false) by (apply (less_not_equal PSIZE msvc true inv Hp H0 Hw He mem x d b a w v); auto).
    assert (Q' : is_equal msvc true d x = false).
    { destruct (is_equal msvc true d x) eqn:E; [| reflexivity]. apply (is_equal_hack PSIZE msvc true Hp mem d x eq_refl) in E.
      destruct E as (E1 & E2 & E3). rewrite <- Q. symmetry. apply (is_equal_hack PSIZE msvc true Hp mem x d eq_refl). repeat split; auto. rewrite <- E2.
      destruct E3 as [? | [? | E3]]; auto. }
    rewrite Q'. auto.
  - right. right. rewrite (less_total PSIZE msvc true inv Hp Hw He mem d x a b v w); auto.
Qed.
End Two.
Print Assumptions C80_equal_sound.
Print Assumptions C80_equal_value.
Print Assumptions C80_equal_msvc.
Print Assumptions C80_equal_gcc.
Print Assumptions C80_order.

(** ... and transitive, for all delegates of a program, in both versions *)
Theorem C80_order_transitive : forall PSIZE msvc hack inv mem l st a b c u v w, machine PSIZE msvc inv -> program_ok PSIZE msvc inv mem l ->
  run PSIZE msvc hack inv empty_store l = Some st -> holds l a u -> holds l b v -> holds l c w ->
  less PSIZE msvc hack st a b = Some true -> less PSIZE msvc hack st b c = Some true -> less PSIZE msvc hack st a c = Some true.
Proof.
  intros PSIZE msvc hack inv mem l st a b c u v w (Hp & H0 & Hw & He) (F & G) R Ha Hb Hc.
  assert (P : forall a u, holds l a u -> exists d, dels st a = Some d /\ 0 <= d_static d).
  { intros a0 u0 H. destruct (reach PSIZE msvc hack inv Hp Hw mem l a0 u0 F G H) as (s1 & d & R1 & D1 & Rl & _).
    rewrite R in R1. injection R1 as <-. exists d. split; [exact D1|]. destruct u0 as [| f | m obj]; cbn [rel] in Rl.
    - destruct Rl as (_ & -> & _). lia.
    - destruct Rl as (_ & (Wf & _) & _ & Q). destruct hack; [destruct Q as (_ & ->); lia | destruct Q as (-> & _); exact Wf].
    - destruct Rl as (_ & _ & _ & ->). lia. }
  destruct (P a u Ha) as (d & D1 & S1), (P b v Hb) as (e & D2 & S2), (P c w Hc) as (f & D3 & S3).
  unfold less. rewrite D1, D2, D3. intros E1 E2. injection E1 as E1. injection E2 as E2. f_equal.
  eapply less_trans; eauto.
Qed.
Print Assumptions C80_order_transitive.

(** A delegate is empty exactly if nothing is bound. *)
Theorem C80_empty : forall PSIZE msvc inv mem l st a v, machine PSIZE msvc inv -> program_ok PSIZE msvc inv mem l ->
  run PSIZE msvc true inv empty_store l = Some st -> holds l a v -> real v ->
  (bound_nothing msvc st a = Some true <-> v = Nothing).
Proof.
  intros PSIZE msvc inv mem l st a v (Hp & H0 & Hw & He) (F & G) R H Hr.
  destruct (reach PSIZE msvc true inv Hp Hw mem l a v F G H) as (st' & d & R' & D & Rl & W).
  rewrite R in R'. injection R' as <-. unfold bound_nothing. rewrite D. cbn [option_map].
  rewrite <- (empty_value PSIZE msvc true inv Hp H0 Hw He mem d a v eq_refl Rl Hr). split; [intros E; injection E; auto | intros ->; reflexivity].
Qed.
Print Assumptions C80_empty.

(** ** What is false *)

(** GCC: two delegates can make the same call in every memory and not be equal: the method of a base
    class bound through a pointer to member of the derived class, and through one of the base. *)
Definition two_ways : list op :=
  [New 16; BindM 16 (MG (Gmfp 4096 8)) 512 (fun _ => 0); New 48; BindM 48 (MG (Gmfp 4096 0)) 520 (fun _ => 0)].
Theorem C80_equal_refuted :
  exists l st a b v w, Forall (op_ok 8 false 8192) l /\ run 8 false true 8192 empty_store l = Some st
    /\ holds l a v /\ holds l b w /\ real v /\ real w
    /\ (forall mem, value_call 8 mem v = Some (CallMethod (Direct 4096) 520) /\ value_call 8 mem w = Some (CallMethod (Direct 4096) 520))
    /\ equal false true st a b = Some false.
Proof.
  exists two_ways. eexists. exists 16, 48, (Method (MG (Gmfp 4096 8)) 512), (Method (MG (Gmfp 4096 0)) 520).
  split; [repeat constructor; cbn; unfold word; cbn; lia|].
  split; [reflexivity|]. split; [eexists; split; reflexivity|]. split; [eexists; split; reflexivity|].
  split; [cbn; lia|]. split; [cbn; lia|]. split; [intros mem; split; reflexivity|]. vm_compute. reflexivity.
Qed.
Print Assumptions C80_equal_refuted.

(** Comparing a delegate with a function: true only if the function is where the delegate is.  So a
    delegate bound to a function is never equal to it. *)
Theorem C80_function_compare_refuted : forall PSIZE msvc inv mem l st a v f, machine PSIZE msvc inv -> program_ok PSIZE msvc inv mem l ->
  run PSIZE msvc true inv empty_store l = Some st -> holds l a v -> f <> 0 -> f <> a ->
  equal_function msvc true st a f = Some false.
Proof.
  intros PSIZE msvc inv mem l st a v f (Hp & H0 & Hw & He) (F & G) R H F0 Fa.
  destruct (reach PSIZE msvc true inv Hp Hw mem l a v F G H) as (st' & d & R' & D & Rl & W).
  rewrite R in R'. injection R' as <-. unfold equal_function. destruct (f =? 0) eqn:E; [apply Z.eqb_eq in E; contradiction|].
  rewrite D. cbn. f_equal. apply Z.eqb_neq. exact Fa.
Qed.
Print Assumptions C80_function_compare_refuted.
Example C80_function_compare_case :
  exists st, run 8 false true 8192 empty_store [New 16; BindF 16 4096] = Some st
  /\ holds [New 16; BindF 16 4096] 16 (Fun 4096)
  /\ invoke 8 false true 8192 st (fun _ => 0) 16 = Some (CallFunction 4096)
  /\ equal_function false true st 16 4096 = Some false.
Proof. eexists. split; [reflexivity|]. split; [eexists; split; reflexivity|]. split; vm_compute; reflexivity. Qed.

(** ** Without the hack (not compiled by default) *)
(** == compares the addresses of the delegates if they hold functions, and not the objects *)
Theorem C80_safe_equal : forall PSIZE msvc inv mem l st a b v w, machine PSIZE msvc inv -> program_ok PSIZE msvc inv mem l ->
  run PSIZE msvc false inv empty_store l = Some st -> holds l a v -> holds l b w -> real v -> real w ->
  (equal msvc false st a b = Some true <-> safe_same a v b w).
Proof.
  intros PSIZE msvc inv mem l st a b v w (Hp & H0 & Hw & He) (F & G) R Ha Hb Va Vb.
  destruct (reach PSIZE msvc false inv Hp Hw mem l a v F G Ha) as (s1 & d & R1 & D1 & Rl1 & _).
  destruct (reach PSIZE msvc false inv Hp Hw mem l b w F G Hb) as (s2 & x & R2 & D2 & Rl2 & _).
  rewrite R in R1, R2. injection R1 as <-. injection R2 as <-. unfold equal. rewrite D1, D2.
  rewrite <- (safe_equal_iff PSIZE msvc false inv Hp H0 Hw He mem d x a b v w eq_refl Rl1 Rl2 Va Vb).
  split; [intros E; injection E; auto | intros ->; reflexivity].
Qed.
Print Assumptions C80_safe_equal.
(** the same method of two objects is equal; the same function is not *)
Theorem C80_safe_equal_refuted :
  (exists l st a b m o p, Forall (op_ok 8 false 8192) l /\ run 8 false false 8192 empty_store l = Some st
     /\ holds l a (Method m o) /\ holds l b (Method m p) /\ o <> p /\ equal false false st a b = Some true)
  /\ (exists l st a b f, Forall (op_ok 8 false 8192) l /\ run 8 false false 8192 empty_store l = Some st
     /\ holds l a (Fun f) /\ holds l b (Fun f) /\ equal false false st a b = Some false).
Proof.
  split.
  - exists [New 16; BindM 16 (MG (Gmfp 4096 0)) 512 (fun _ => 0); New 48; BindM 48 (MG (Gmfp 4096 0)) 520 (fun _ => 0)].
    eexists. exists 16, 48, (MG (Gmfp 4096 0)), 512, 520.
    split; [repeat constructor; cbn; unfold word; cbn; lia|]. split; [reflexivity|].
    split; [eexists; split; reflexivity|]. split; [eexists; split; reflexivity|]. split; [lia | vm_compute; reflexivity].
  - exists [New 16; BindF 16 4096; NewCopy 48 16]. eexists. exists 16, 48, 4096.
    split; [repeat constructor; cbn; unfold word; cbn; lia|]. split; [reflexivity|].
    split; [eexists; split; reflexivity|]. split; [eexists; split; reflexivity|]. vm_compute; reflexivity.
Qed.
Print Assumptions C80_safe_equal_refuted.
(** a delegate that was assigned 0 is not empty *)
Theorem C80_safe_empty_refuted :
  exists l st a, Forall (op_ok 8 false 8192) l /\ run 8 false false 8192 empty_store l = Some st
    /\ holds l a Nothing /\ bound_nothing false st a = Some false.
Proof.
  exists [New 16; BindF 16 4096; BindF 16 0]. eexists. exists 16.
  split; [repeat constructor; cbn; unfold word; cbn; lia|]. split; [reflexivity|].
  split; [eexists; split; reflexivity|]. vm_compute; reflexivity.
Qed.
Print Assumptions C80_safe_empty_refuted.
(** but comparing with a function works *)
Theorem C80_safe_function_compare : forall PSIZE msvc inv mem l st a v f, machine PSIZE msvc inv -> program_ok PSIZE msvc inv mem l ->
  run PSIZE msvc false inv empty_store l = Some st -> holds l a v -> f <> 0 ->
  (equal_function msvc false st a f = Some true <-> v = Fun f).
Proof.
  intros PSIZE msvc inv mem l st a v f (Hp & H0 & Hw & He) (F & G) R H F0.
  destruct (reach PSIZE msvc false inv Hp Hw mem l a v F G H) as (st' & d & R' & D & Rl & W).
  rewrite R in R'. injection R' as <-. unfold equal_function, get_static.
  destruct (f =? 0) eqn:E; [apply Z.eqb_eq in E; contradiction|]. rewrite D. cbn [option_map].
  assert (Q : d_static d = match v with Fun g => g | _ => 0 end).
  { destruct v as [| g | m obj]; cbn [rel] in Rl; [apply Rl | apply Rl | apply Rl]. }
  rewrite Q. destruct v as [| g | m obj].
  - rewrite E. split; discriminate.
  - split; [intros X; injection X as X; apply Z.eqb_eq in X; subst; reflexivity | intros X; injection X as ->; rewrite Z.eqb_refl; reflexivity].
  - rewrite E. split; discriminate.
Qed.
Print Assumptions C80_safe_function_compare.

(** The hypotheses can be met: a method of an object with MSVC's multiple inheritance (x86-64, a
    pointer of 16 bytes), copied through a memento, and a function. *)
Definition ms_prog : list op :=
  [New 16; BindM 16 (MM (Mmfp 4096 [24]) 0) 512 (fun _ => 0); Save 99 16; New 48; BindF 48 7000; New 80; Load 80 99; Assign 16 48].
Example C80_case : machine 8 true 8192 /\ program_ok 8 true 8192 (fun _ => 0) ms_prog
  /\ holds ms_prog 16 (Fun 7000) /\ holds ms_prog 80 (Method (MM (Mmfp 4096 [24]) 0) 512)
  /\ real (Method (MM (Mmfp 4096 [24]) 0) 512)
  /\ exists st, run 8 true true 8192 empty_store ms_prog = Some st
     /\ invoke 8 true true 8192 st (fun _ => 0) 80 = Some (CallMethod (Direct 4096) 536)
     /\ invoke 8 true true 8192 st (fun _ => 0) 16 = Some (CallFunction 7000)
     /\ equal true true st 16 48 = Some true /\ equal true true st 16 80 = Some false
     /\ less 8 true true st 80 16 = Some true /\ bound_nothing true st 16 = Some false.
Proof.
  split; [repeat split; try lia; unfold word; cbn; lia|].
  split; [split; repeat constructor; cbn; unfold word; cbn; lia|].
  split; [eexists; split; reflexivity|]. split; [eexists; split; reflexivity|]. split; [cbn; lia|].
  eexists. split; [reflexivity|]. repeat split; vm_compute; reflexivity.
Qed.
(** GCC, a virtual method: found when the delegate is called *)
Definition gcc_prog : list op := [New 16; BindM 16 (MG (abi_virtual 8 3 8)) 512 (fun _ => 0); NewCopy 48 16].
Example C80_gcc_case : machine 8 false 8192 /\ program_ok 8 false 8192 (fun _ => 0) gcc_prog
  /\ exists st, run 8 false true 8192 empty_store gcc_prog = Some st
     /\ invoke 8 false true 8192 st (fun a => if a =? 521 then 1 else 0) 48 = Some (CallMethod (Slot 280) 520)
     /\ equal false true st 16 48 = Some true.
Proof.
  split; [repeat split; try lia; unfold word; cbn; lia|].
  split; [split; repeat constructor; cbn; unfold word; cbn; lia|].
  eexists. split; [reflexivity|]. repeat split; vm_compute; reflexivity.
Qed.
