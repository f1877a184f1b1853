(** C54 (reference counts of generated hook managers), C58 (where values are returned)
    and C59 (what a generated manager says about itself). *)
From Coq Require Import List ZArith Bool Lia.
From Verif Require Import ListModel ProtoModel ProtoSpec ProtoProofs GenModel GenSpec GenProofs.
Import ListNotations.
Local Open Scope Z_scope.
Notation length := List.length.

(** ** C54 *)

(** After every history the living managers are exactly those that were handed out more
    often than given back, and their counters say how often. *)
Theorem C54_counts : forall b ops l log,
  honest b [] ops -> grun b [] ops = Some (l, log) ->
  NoDup (map c_pub l) /\
  (forall c, In c l -> c_pub c <> 0 /\ c_ref c = balance (c_pub c) log) /\
  (forall f, f <> 0 -> ((exists c, In c l /\ c_pub c = f) <-> 0 < balance f log)).
Proof.
  intros b ops l log H R. destruct (grun_balance _ _ _ _ H R) as [G C].
  split; [apply G|]. split.
  - intros c Hc. pose proof (g_ok _ G) as Ho. rewrite Forall_forall in Ho. destruct (Ho c Hc) as (_&Hz&_).
    split; [exact Hz|]. rewrite <- (C _ Hz). symmetry. exact (cnt_in _ _ (g_nd _ G) Hc).
  - intros f Hf. rewrite <- (C f Hf). symmetry. exact (cnt_live l f G).
Qed.
Print Assumptions C54_counts.

(** A call of ReleaseHookMan destroys its manager if this was its last user, and
    nothing else ever. *)
Theorem C54_destroyed : forall b ops l pre f d post,
  honest b [] ops -> grun b [] ops = Some (l, pre ++ Released f d :: post) -> f <> 0 ->
  (balance f pre = 1 -> d = [f]) /\ (balance f pre <> 1 -> d = []).
Proof.
  intros b ops l pre f d post H R Hf. destruct (at_event _ _ _ _ _ _ H R) as (l0&o&l1&ops'&G&C&A&S&_).
  rewrite <- (C f Hf). clear C R. remember (Released f d) as e eqn:Ee.
  destruct S as [l1' c l2 raw p o i a _ Hl Hfl Hk|raw p o i a _ Hfl Hn Hg Ha|raw p o i a _ Hfl Hn Hg|raw o i a Hb|g Hn|l1' c l2 Hl Hr|l1' c l2 Hl Hr];
    try discriminate; injection Ee as Ef Ed; subst d.
  - subst g. rewrite (cnt_absent _ _ Hn). split; [lia|reflexivity].
  - subst f. assert (Hc : In c l0) by (subst l0; apply in_or_app; right; left; reflexivity).
    rewrite (cnt_in _ _ (g_nd _ G) Hc). split; [congruence|reflexivity].
  - assert (Hc : In c l0) by (subst l0; apply in_or_app; right; left; reflexivity).
    subst f. rewrite (cnt_in _ _ (g_nd _ G) Hc). split; [reflexivity|congruence].
Qed.
Print Assumptions C54_destroyed.

(** As long as a manager is held, requests for the same prototype and place get it. *)
Theorem C54_same_manager : forall b ops l pre mid post raw o i f raw' o' i' f',
  honest b [] ops ->
  grun b [] ops = Some (l, pre ++ Made raw o i f :: mid ++ Made raw' o' i' f' :: post) ->
  f <> 0 -> same_request raw o i raw' o' i' ->
  held_throughout f (pre ++ [Made raw o i f]) mid ->
  f' = f.
Proof.
  intros b ops l pre mid post raw o i f raw' o' i' f' H R Hf ((p1&p2&F1&F2&Hid)&Ho&Hi) Hh.
  destruct (at_event _ _ _ _ _ _ H R) as (l0&op&l1&ops'&G&C&A&S&G1&C1&H1&R1).
  destruct (made_live _ _ _ _ _ _ _ _ G A S Hf) as (p&c&F&Hc&Hp&Hk).
  rewrite F1 in F. inversion F; subst p.
  destruct (held_key b f (key c) Hf mid ops' l1 l c _ _ G1 H1 R1 C1 Hc Hp eq_refl Hh)
    as (l2&ops2&c2&G2&H2&R2&Hc2&Hp2&Hk2).
  destruct (grun_first _ _ _ _ _ _ G2 H2 R2) as (op3&ops3&l3&->&A3&S3&_).
  rewrite <- Hp2. assert (Nb : b <> Linux64).
  { intro K. subst b. inversion S; subst; try congruence. }
  apply (made_shared _ _ _ _ _ _ _ _ p2 c2 G2 A3 S3 Nb F2 Hc2).
  rewrite Hk2. destruct Hk as (K1&K2&K3). cbn in K1, K2, K3. subst o' i'.
  split; [|split; assumption]. cbn. exact (identical_trans _ _ _ K1 Hid).
Qed.
Print Assumptions C54_same_manager.

(** And only those: while a manager is held, whoever gets it asked for the same. *)
Theorem C54_only_same : forall b ops l pre mid post raw o i f raw' o' i',
  honest b [] ops ->
  grun b [] ops = Some (l, pre ++ Made raw o i f :: mid ++ Made raw' o' i' f :: post) ->
  f <> 0 -> held_throughout f (pre ++ [Made raw o i f]) mid ->
  same_request raw o i raw' o' i'.
Proof.
  intros b ops l pre mid post raw o i f raw' o' i' H R Hf Hh.
  destruct (at_event _ _ _ _ _ _ H R) as (l0&op&l1&ops'&G&C&A&S&G1&C1&H1&R1).
  destruct (made_live _ _ _ _ _ _ _ _ G A S Hf) as (p&c&F&Hc&Hp&Hk).
  destruct (held_key b f (key c) Hf mid ops' l1 l c _ _ G1 H1 R1 C1 Hc Hp eq_refl Hh)
    as (l2&ops2&c2&G2&H2&R2&Hc2&Hp2&Hk2).
  destruct (grun_first _ _ _ _ _ _ G2 H2 R2) as (op3&ops3&l3&->&A3&S3&G3&_).
  destruct (made_live _ _ _ _ _ _ _ _ G2 A3 S3 Hf) as (p3&c3&F3&Hc3&Hp3&Hk3).
  assert (Kk : key c2 = key c3) by (apply (step_keys _ _ _ _ _ c2 c3 G2 A3 S3 Hc2 Hc3); congruence).
  rewrite <- Kk, Hk2 in Hk3. pose proof (key_same_trans _ _ _ (key_same_sym _ _ Hk) Hk3) as (K1&K2&K3).
  cbn in K1, K2, K3. split; [exists p, p3; auto|auto].
Qed.
Print Assumptions C54_only_same.

(** Releasing something that is not held changes nothing. *)
Theorem C54_unknown_release : forall b ops l log f,
  honest b [] ops -> grun b [] ops = Some (l, log) -> f = 0 \/ balance f log = 0 ->
  gstep b l (Release f) = Some (l, Released f []).
Proof.
  intros b ops l log f H R Hf. destruct (grun_balance _ _ _ _ H R) as [G C].
  assert (N : ~ In f (map c_pub l)).
  { intro K. apply in_map_iff in K. destruct K as (c&E&Hc). pose proof (g_ok _ G) as Ho.
    rewrite Forall_forall in Ho. destruct (Ho c Hc) as (Hr&Hz&_). rewrite E in Hz.
    destruct Hf as [Hf|Hf]; [contradiction|]. rewrite <- (C f Hz), <- E, (cnt_in _ _ (g_nd _ G) Hc) in Hf. lia. }
  cbn [gstep]. destruct (release_spec f l) as [[_ ->]|(l1&c&l2&->&<-&_)]; [reflexivity|].
  exfalso. apply N. apply in_map. apply in_or_app. right. left. reflexivity.
Qed.
Print Assumptions C54_unknown_release.

(** A request for a function that generated code can hook is never refused.  A request
    is granted by a new manager only for such a function, and by an existing one only
    if that one's prototype is such a one. *)
Theorem C54_refused : forall b ops l pre raw o i f post,
  b <> Linux64 -> honest b [] ops ->
  grun b [] ops = Some (l, pre ++ Made raw o i f :: post) ->
  exists p, fill raw = Some p /\
    (f = 0 -> ~ ok_proto p) /\
    (f <> 0 -> balance f pre = 0 -> ok_proto p) /\
    (f <> 0 -> exists p', identical p' p /\ ok_proto p').
Proof.
  intros b ops l pre raw o i f post Nb H R. destruct (at_event _ _ _ _ _ _ H R) as (l0&op&l1&ops'&G&C&A&S&_).
  remember (Made raw o i f) as e eqn:Ee.
  destruct S as [l1' c l2 raw0 p o0 i0 a _ Hl Hfl Hk|raw0 p o0 i0 a _ Hfl Hn Hg Ha|raw0 p o0 i0 a _ Hfl Hn Hg|raw0 o0 i0 a Hb|g Hn|l1' c l2 Hl Hr|l1' c l2 Hl Hr];
    try discriminate; try congruence; injection Ee as -> -> -> Ef; exists p; (split; [exact Hfl|]).
  - assert (Hc : In c l0) by (subst l0; apply in_or_app; right; left; reflexivity).
    pose proof (g_ok _ G) as Ho. rewrite Forall_forall in Ho. destruct (Ho c Hc) as (Hr&Hz&Hok&_).
    split; [congruence|]. split.
    + intros Hf Hb. rewrite <- (C f Hf), <- Ef, (cnt_in _ _ (g_nd _ G) Hc) in Hb. lia.
    + intros _. exists (c_proto c). split; [exact (proj1 Hk)|exact Hok].
  - apply (generate_spec b p a Ha) in Hg. split; [congruence|]. split; [auto|].
    intros _. exists p. split; [apply identical_refl|exact Hg].
  - destruct A as [A _]. split; [|split; congruence]. intros _ K. apply (generate_spec b p a A) in K. congruence.
Qed.
Print Assumptions C54_refused.

(** Nothing can go wrong unless a counter reaches the largest int: the histories of
    valid descriptions with fewer than 2^31 - 1 requests are all covered. *)
Theorem C54_defined : forall b ops,
  honest b [] ops -> Z.of_nat (length ops) < int_max ->
  Forall (fun o => match o with Make raw _ _ _ => exists p, fill raw = Some p | Release _ => True end) ops ->
  exists l log, grun b [] ops = Some (l, log).
Proof.
  intros b ops.
  assert (K : forall ops l, ginv l -> honest b l ops ->
    Forall (fun c => c_ref c + Z.of_nat (length ops) <= int_max) l -> Z.of_nat (length ops) < int_max ->
    Forall (fun o => match o with Make raw _ _ _ => exists p, fill raw = Some p | Release _ => True end) ops ->
    exists l' log, grun b l ops = Some (l', log)).
  { clear ops. induction ops as [|o ops IH]; intros l G H B N F; cbn [grun]; [eauto|].
    inversion F as [|? ? Fo F']; subst. cbn [honest] in H. destruct H as [H1 H2].
    change (Datatypes.length (o :: ops)) with (S (length ops)) in B, N. rewrite Nat2Z.inj_succ in B, N.
    destruct (gstep b l o) as [[l1 e]|] eqn:E.
    - cbn [fst snd]. pose proof (gstep_case _ _ _ _ _ G E) as S.
      assert (B1 : Forall (fun c => c_ref c + Z.of_nat (length ops) <= int_max) l1).
      { destruct S as [l1' c l2 raw p o i a _ Hl Hfl Hk|raw p o i a _ Hfl Hn Hg Ha|raw p o i a _ Hfl Hn Hg|raw o i a Hb|g Hn|l1' c l2 Hl Hr|l1' c l2 Hl Hr];
        try (eapply Forall_impl; [|exact B]; cbn; intros; lia).
        - subst l. apply Forall_app in B. destruct B as [B1 B2]. inversion B2 as [|? ? B3 B4]; subst.
          apply Forall_app. split; [eapply Forall_impl; [|exact B1]; cbn; intros; lia|].
          constructor; [cbn; lia|eapply Forall_impl; [|exact B4]; cbn; intros; lia].
        - apply Forall_app. split; [eapply Forall_impl; [|exact B]; cbn; intros; lia|].
          constructor; [cbn [c_ref]; lia|constructor].
        - subst l. apply Forall_app in B. destruct B as [B1 B2]. inversion B2 as [|? ? B3 B4]; subst.
          apply Forall_app. split; [eapply Forall_impl; [|exact B1]; cbn; intros; lia|].
          constructor; [cbn; lia|eapply Forall_impl; [|exact B4]; cbn; intros; lia].
        - subst l. apply Forall_app in B. destruct B as [B1 B2]. inversion B2 as [|? ? B3 B4]; subst.
          apply Forall_app. split; [eapply Forall_impl; [|exact B1]; cbn; intros; lia|].
          eapply Forall_impl; [|exact B4]; cbn; intros; lia. }
      destruct (IH l1 (step_ginv _ _ _ _ _ G H1 S) H2 B1 ltac:(lia) F') as (l'&log&->). eauto.
    - exfalso. destruct o as [raw o i a|f]; cbn [gstep] in E.
      + destruct Fo as [p Fp].
        assert (M : make_loop l p o i <> None).
        { apply make_loop_defined; [exact (fill_wf _ _ Fp)|exact (ginv_wf l G)|].
          eapply Forall_impl; [|exact B]. cbn. intros c Hc. lia. }
        unfold make_hook_man in E. rewrite Fp in E.
        destruct (make_loop l p o i) as [[[? ?]|]|] eqn:El; [| |contradiction].
        * destruct b; discriminate.
        * destruct b; try discriminate; cbn zeta in E; destruct (generate _ p a =? 0); discriminate.
      + destruct (release_hook_man l f). discriminate. }
  intros H N F. apply K; auto using ginv_nil.
Qed.
Print Assumptions C54_defined.

(** Linux with 64 bits: no managers at all *)
Theorem C54_linux64 : forall l raw o i a, make_hook_man Linux64 l raw o i a = Some (l, 0).
Proof. reflexivity. Qed.
Print Assumptions C54_linux64.

(** *** Examples *)
Definition int_pass : rawpass := RawPass 4 1 1.
Definition ex_proto : rawproto :=
  RawProto 1 int_pass [RawPass 1 0 0; int_pass] 1 no_pass2 [no_pass2; no_pass2].
Definition ex_proto2 : rawproto :=
  RawProto 0 int_pass [RawPass 1 0 0] 1 no_pass2 [no_pass2].
(** an object with a copy constructor at [c] *)
Definition ex_obj (c : Z) : rawproto :=
  RawProto 1 int_pass [RawPass 1 0 0; RawPass 16 3 33] 1 no_pass2 [no_pass2; RawPass2 0 c 0 0].
Definition ex_cdecl : rawproto := RawProto 0 int_pass [RawPass 1 0 0] 2 no_pass2 [no_pass2].

Definition ex_ops : list gop :=
  [Make (Some ex_proto) 0 5 4096; Make (Some ex_proto2) 0 5 8192; Make (Some ex_proto) 0 5 12288;
   Make (Some ex_cdecl) 0 1 12288; Release 4096; Release 777; Make (Some ex_proto) 0 6 12288; Release 4096; Make (Some ex_proto) 0 5 4096].
Example ex_ops_run : exists l, grun Gcc32 [] ex_ops =
  Some (l, [Made (Some ex_proto) 0 5 4096; Made (Some ex_proto2) 0 5 8192; Made (Some ex_proto) 0 5 4096;
            Made (Some ex_cdecl) 0 1 0; Released 4096 []; Released 777 []; Made (Some ex_proto) 0 6 12288; Released 4096 [4096]; Made (Some ex_proto) 0 5 4096])
  /\ honest Gcc32 [] ex_ops.
Proof.
  eexists. split; [vm_compute; reflexivity|].
  vm_compute. repeat split; try discriminate; intros K; repeat (destruct K as [K|K]; try discriminate); exact K.
Qed.
Example ex_held : held_throughout 4096 [Made (Some ex_proto) 0 5 4096] [Made (Some ex_proto2) 0 5 8192]
  /\ same_request (Some ex_proto) 0 5 (Some ex_proto) 0 5
  /\ ok_proto (Proto 1 1 (PassInfo 4 1 1 0 0 0 0) [PassInfo 4 1 1 0 0 0 0] 1).
Proof.
  split; [|split].
  - intros m1 m2 E. destruct m1 as [|e m1]; [vm_compute; reflexivity|]. cbn in E. injection E as <- E.
    destruct m1; [vm_compute; reflexivity|discriminate].
  - split; [|auto]. eexists. eexists. split; [vm_compute; reflexivity|]. split; [vm_compute; reflexivity|]. apply identical_refl.
  - split; [cbn; lia|]. split; [exists false, false; reflexivity|].
    assert (P : ok_pass (PassInfo 4 1 1 0 0 0 0)).
    { split; [left; reflexivity|]. split; [left; reflexivity|]. cbn. discriminate. }
    split; [right; exact P|constructor; [exact P|constructor]].
Qed.

(** *** Findings *)

(** Two prototypes that differ in a copy constructor share a manager, which calls the
    first one's. *)
Theorem C54_copy_ctor_refuted :
  ~ (forall b ops l raw o i f raw' log,
       honest b [] ops -> grun b [] ops = Some (l, [Made raw o i f; log; Made raw' o i f]) -> f <> 0 -> fill raw = fill raw').
Proof.
  intros K.
  assert (E : exists l, grun Gcc32 [] [Make (Some (ex_obj 100)) 0 5 4096; Release 0; Make (Some (ex_obj 200)) 0 5 8192]
     = Some (l, [Made (Some (ex_obj 100)) 0 5 4096; Released 0 []; Made (Some (ex_obj 200)) 0 5 4096])) by (eexists; vm_compute; reflexivity).
  destruct E as [l E].
  assert (D : fill (Some (ex_obj 100)) = fill (Some (ex_obj 200))).
  { apply (K Gcc32 _ l _ _ _ _ _ _ ) with (2 := E); [|discriminate].
    vm_compute. repeat split; try discriminate; intros J; repeat (destruct J as [J|J]; try discriminate); exact J. }
  vm_compute in D. discriminate.
Qed.
Print Assumptions C54_copy_ctor_refuted.

(** So a request without a copy constructor, which is refused otherwise, can be
    granted. *)
Theorem C54_missing_copy_ctor :
  (exists l, grun Gcc32 [] [Make (Some (ex_obj 0)) 0 5 4096] = Some (l, [Made (Some (ex_obj 0)) 0 5 0])) /\
  (exists l, grun Gcc32 [] [Make (Some (ex_obj 100)) 0 5 4096; Make (Some (ex_obj 0)) 0 5 8192]
     = Some (l, [Made (Some (ex_obj 100)) 0 5 4096; Made (Some (ex_obj 0)) 0 5 4096])).
Proof. split; eexists; vm_compute; reflexivity. Qed.
Print Assumptions C54_missing_copy_ctor.

(** A release too many is not noticed once the address is used again: the second
    Release 4096 comes from somebody who had given back the first manager already, and
    destroys another one. *)
Theorem C54_stale_release :
  exists l, grun Gcc32 [] [Make (Some ex_proto) 0 5 4096; Release 4096; Make (Some ex_proto2) 0 7 4096; Release 4096]
   = Some (l, [Made (Some ex_proto) 0 5 4096; Released 4096 [4096]; Made (Some ex_proto2) 0 7 4096; Released 4096 [4096]]).
Proof. eexists. vm_compute. reflexivity. Qed.
Print Assumptions C54_stale_release.

(** ** C58 *)
Lemma byval_has p : has (pi_flags p) PassFlag_ByVal = Z.testbit (pi_flags p) 0.
Proof. exact (has_bit (pi_flags p) 0 ltac:(lia)). Qed.

Lemma set7_clear6 f : in_register (Z.lor (clear f PassFlag_RetMem) PassFlag_RetReg).
Proof.
  unfold in_register, clear. change PassFlag_RetMem with (2 ^ 6). change PassFlag_RetReg with (2 ^ 7).
  rewrite !Z.lor_spec, !Z.ldiff_spec, !Z.pow2_bits_eqb by lia. cbn. rewrite andb_false_r, orb_true_r. auto.
Qed.
Lemma set6_clear7 f : in_memory (Z.lor (clear f PassFlag_RetReg) PassFlag_RetMem).
Proof.
  unfold in_memory, clear. change PassFlag_RetMem with (2 ^ 6). change PassFlag_RetReg with (2 ^ 7).
  rewrite !Z.lor_spec, !Z.ldiff_spec, !Z.pow2_bits_eqb by lia. cbn. rewrite andb_false_r, orb_true_r. auto.
Qed.
Lemma silent_has p : ~ says_where p -> has (pi_flags p) (Z.lor PassFlag_RetMem PassFlag_RetReg) = false
   /\ Z.testbit (pi_flags p) 6 = false /\ Z.testbit (pi_flags p) 7 = false.
Proof.
  intros H. unfold says_where in H. unfold has.
  change (Z.lor PassFlag_RetMem PassFlag_RetReg) with (Z.lor (2 ^ 6) (2 ^ 7)). rewrite has_two by lia.
  destruct (Z.testbit (pi_flags p) 6); [exfalso; auto|]. destruct (Z.testbit (pi_flags p) 7); [exfalso; auto|]. auto.
Qed.
Lemma set7_silent p : ~ says_where p -> in_register (Z.lor (pi_flags p) PassFlag_RetReg).
Proof.
  intros H. destruct (silent_has p H) as (_&A&B). unfold in_register.
  change PassFlag_RetReg with (2 ^ 7). rewrite !Z.lor_spec, !Z.pow2_bits_eqb by lia. rewrite A, B. auto.
Qed.
Lemma set6_silent p : ~ says_where p -> in_memory (Z.lor (pi_flags p) PassFlag_RetMem).
Proof.
  intros H. destruct (silent_has p H) as (_&A&B). unfold in_memory.
  change PassFlag_RetMem with (2 ^ 6). rewrite !Z.lor_spec, !Z.pow2_bits_eqb by lia. rewrite A, B. auto.
Qed.

(** Numbers and pointers by value: in a register if and only if they have at most 8
    bytes, whatever the user says; references: in a register. *)
Theorem C58_scalar : forall b p, pi_size p <> 0 -> by_value p -> is_scalar p ->
  (pi_size p <= 8 -> in_register (auto_ret_flags b p)) /\ (8 < pi_size p -> in_memory (auto_ret_flags b p)).
Proof.
  intros b p Hz Hv Hs. unfold auto_ret_flags. cbn zeta. rewrite byval_has, Hv.
  replace (match b with Msvc64 => pi_size p =? 0 | _ => false end) with false
    by (destruct b; try reflexivity; symmetry; apply Z.eqb_neq; exact Hz).
  replace ((pi_type p =? PassType_Basic) || (pi_type p =? PassType_Float)) with true
    by (destruct Hs as [-> | ->]; reflexivity).
  destruct (Z.leb_spec (pi_size p) 8); split; intros; try lia; [apply set7_clear6|apply set6_clear7].
Qed.
Print Assumptions C58_scalar.

Theorem C58_reference : forall b p, pi_size p <> 0 -> ~ by_value p -> in_register (auto_ret_flags b p).
Proof.
  intros b p Hz Hv. unfold auto_ret_flags. cbn zeta. rewrite byval_has.
  replace (match b with Msvc64 => pi_size p =? 0 | _ => false end) with false
    by (destruct b; try reflexivity; symmetry; apply Z.eqb_neq; exact Hz).
  unfold by_value in Hv. destruct (Z.testbit (pi_flags p) 0); [contradiction|]. apply set7_clear6.
Qed.
Print Assumptions C58_reference.

(** Objects by value: what the user says; otherwise in memory, except on macOS if the
    size is a power of two of at most 8. *)
Theorem C58_object_said : forall b p, by_value p -> is_object p -> says_where p -> auto_ret_flags b p = pi_flags p.
Proof.
  intros b p Hv Ho Hw. unfold auto_ret_flags. cbn zeta. rewrite byval_has, Hv, Ho. cbn [Z.eqb PassType_Basic PassType_Float PassType_Object orb Pos.eqb].
  assert (E : has (pi_flags p) (Z.lor PassFlag_RetMem PassFlag_RetReg) = true).
  { unfold has. change (Z.lor PassFlag_RetMem PassFlag_RetReg) with (Z.lor (2 ^ 6) (2 ^ 7)). rewrite has_two by lia.
    destruct Hw as [-> | ->]; [reflexivity|]. rewrite orb_true_r. reflexivity. }
  rewrite E. destruct b; try reflexivity. destruct (pi_size p =? 0); reflexivity.
Qed.
Print Assumptions C58_object_said.

Theorem C58_object : forall b p, b = Gcc32 \/ b = Msvc32 -> by_value p -> is_object p -> ~ says_where p ->
  in_memory (auto_ret_flags b p).
Proof.
  intros b p Hb Hv Ho Hw. unfold auto_ret_flags. cbn zeta. rewrite byval_has, Hv, Ho. cbn [Z.eqb PassType_Basic PassType_Float PassType_Object orb Pos.eqb].
  rewrite (proj1 (silent_has p Hw)). destruct Hb as [-> | ->]; apply set6_silent; exact Hw.
Qed.
Print Assumptions C58_object.

Theorem C58_object_apple : forall p, by_value p -> is_object p -> ~ says_where p -> 0 < pi_size p ->
  (pi_size p = 1 \/ pi_size p = 2 \/ pi_size p = 4 \/ pi_size p = 8 -> in_register (auto_ret_flags Apple32 p)) /\
  (~ (pi_size p = 1 \/ pi_size p = 2 \/ pi_size p = 4 \/ pi_size p = 8) -> in_memory (auto_ret_flags Apple32 p)).
Proof.
  intros p Hv Ho Hw Hz. unfold auto_ret_flags. cbn zeta. rewrite byval_has, Hv, Ho. cbn [Z.eqb PassType_Basic PassType_Float PassType_Object orb Pos.eqb].
  rewrite (proj1 (silent_has p Hw)).
  assert (E : (Z.land (pi_size p) (pi_size p - 1) =? 0) && (pi_size p <=? 8) = true <->
     (pi_size p = 1 \/ pi_size p = 2 \/ pi_size p = 4 \/ pi_size p = 8)).
  { destruct (Z.leb_spec (pi_size p) 8) as [L|L].
    - assert (Q : pi_size p = 1 \/ pi_size p = 2 \/ pi_size p = 3 \/ pi_size p = 4 \/ pi_size p = 5 \/ pi_size p = 6 \/ pi_size p = 7 \/ pi_size p = 8) by lia.
      repeat destruct Q as [Q|Q]; try rewrite Q; cbn; split; intros; try lia; try reflexivity; try discriminate.
    - rewrite andb_false_r. split; [discriminate|lia]. }
  destruct (_ && _); split; intros K.
  - apply set7_silent; exact Hw.
  - exfalso. apply K. apply E. reflexivity.
  - apply E in K. discriminate.
  - apply set6_silent; exact Hw.
Qed.
Print Assumptions C58_object_apple.

(** Windows with 64 bits: the intended rule is memory if and only if the size is not 1,
    2, 4 or 8 or there is a constructor or destructor.  But everything is taken to be
    in memory. *)
Theorem C58_object_msvc64 : forall p, by_value p -> is_object p -> ~ says_where p -> pi_size p <> 0 ->
  in_memory (auto_ret_flags Msvc64 p).
Proof.
  intros p Hv Ho Hw Hz. unfold auto_ret_flags. cbn zeta. rewrite byval_has, Hv, Ho. cbn [Z.eqb PassType_Basic PassType_Float PassType_Object orb Pos.eqb].
  destruct (Z.eqb_spec (pi_size p) 0); [contradiction|].
  rewrite (proj1 (silent_has p Hw)).
  assert (E : (Z.lor (Z.lor (Z.land (pi_flags p) PassFlag_OCtor) PassFlag_ODtor) PassFlag_CCtor =? 0) = false).
  { apply Z.eqb_neq. intro K. apply Z.lor_eq_0_iff in K. destruct K as [_ K]. discriminate. }
  rewrite E. cbn [negb]. rewrite orb_true_r. apply set6_silent. exact Hw.
Qed.
Print Assumptions C58_object_msvc64.

Theorem C58_small_object_refuted :
  ~ (forall p, by_value p -> is_object p -> ~ says_where p -> ~ has_special p ->
       pi_size p = 1 \/ pi_size p = 2 \/ pi_size p = 4 \/ pi_size p = 8 -> in_register (auto_ret_flags Msvc64 p)).
Proof.
  intros K. destruct (K (PassInfo 8 3 1 0 0 0 0)) as [H _].
  - reflexivity.
  - reflexivity.
  - intros [H|H]; discriminate H.
  - intros [H|[H|H]]; discriminate H.
  - auto.
  - discriminate H.
Qed.
Print Assumptions C58_small_object_refuted.

Example C58_example : by_value (PassInfo 12 3 1 0 0 0 0) /\ is_object (PassInfo 12 3 1 0 0 0 0) /\ ~ says_where (PassInfo 12 3 1 0 0 0 0)
  /\ is_scalar (PassInfo 4 2 1 0 0 0 0) /\ ~ by_value (PassInfo 4 1 2 0 0 0 0) /\ says_where (PassInfo 8 3 129 0 0 0 0).
Proof. repeat split; try reflexivity; try (intros [H|H]; discriminate H); [right; reflexivity|discriminate|right; reflexivity]. Qed.

(** ** C59 *)
Lemma fill_v2_build : forall l pre pre2, length pre = length pre2 ->
  fill_v2 (pre ++ map raw_of l) (pre2 ++ map raw2_of l) (length pre) (length l) = Some l.
Proof.
  induction l as [|p l IH]; intros pre pre2 E; cbn [fill_v2 length map]; [reflexivity|].
  rewrite !nth_error_app2, E, Nat.sub_diag by lia. rewrite <- E. cbn [nth_error].
  specialize (IH (pre ++ [raw_of p]) (pre2 ++ [raw2_of p])). rewrite !app_length in IH. cbn [length] in IH.
  rewrite <- !app_assoc in IH. cbn [app] in IH. rewrite (Nat.add_comm (length pre) 1) in IH. cbn [Nat.add] in IH.
  rewrite IH by lia. destruct p. reflexivity.
Qed.

(** SourceHook reads back exactly the prototype the code was generated for. *)
Theorem C59_roundtrip : forall raw p b junk0, fill raw = Some p -> pr_version p = 1 ->
  fill (Some (build_proto_info junk0 (auto_detect b p))) = Some (auto_detect b p).
Proof.
  intros raw p b junk0 F V. apply fill_wf in F. unfold proto_wf in F.
  unfold fill, build_proto_info. cbn [raw_params nth_error rp_size raw_num raw_params2 raw_ret raw_ret2 raw_conv].
  cbn [Z.eqb Pos.eqb]. cbn [auto_detect pr_num pr_ret pr_params pr_conv pr_version].
  destruct (Z.ltb_spec (pr_num p) 0) as [L|L]; [lia|].
  pose proof (fill_v2_build (map (auto_param b) (pr_params p)) [RawPass 1 0 0] [junk0] eq_refl) as B.
  cbn [app length] in B. rewrite F, Nat2Z.id, <- (map_length (auto_param b) (pr_params p)), B. unfold auto_detect. rewrite V, F, (map_length (auto_param b)). reflexivity.
Qed.
Print Assumptions C59_roundtrip.

Lemma same_size_refl p : same_passed_size p p.
Proof. apply same_passed_size_spec. reflexivity. Qed.

Lemma auto_ret_size b p : same_passed_size (auto_ret b p) p.
Proof.
  apply same_passed_size_spec. unfold get_real_size. rewrite !byref_testbit. cbn [auto_ret set_flags pi_size pi_flags].
  rewrite auto_ret_bits by lia. reflexivity.
Qed.

Lemma auto_param_same b p : ~ forced_by_reference b p -> auto_param b p = p.
Proof.
  intros H. unfold forced_by_reference, is_object, by_value in H. unfold auto_param.
  rewrite byval_has. change PassFlag_ODtor with (2 ^ 2). rewrite has_bit by lia.
  destruct b; try reflexivity;
  (destruct (Z.eqb_spec (pi_type p) PassType_Object) as [E|E]; [|reflexivity]);
  destruct (Z.testbit (pi_flags p) 0), (Z.testbit (pi_flags p) 2); try reflexivity; exfalso; apply H; auto.
Qed.

(** What a generated manager says about itself is compatible with what it was requested
    for, so that hooks made through one can be found through the other, if and only if
    no parameter is an object that gcc passes by reference. *)
Theorem C59_compatible : forall raw p b junk0 q, fill raw = Some p -> pr_version p = 1 ->
  fill (Some (build_proto_info junk0 (auto_detect b p))) = Some q ->
  Forall (fun x => pi_flags x < 2 ^ 30 /\ 0 <= pi_flags x) (pr_params p) ->
  (proto_eq q p = Some true <-> Forall (fun x => ~ forced_by_reference b x) (pr_params p)).
Proof.
  intros raw p b junk0 q F V Q U. rewrite (C59_roundtrip raw p b junk0 F V) in Q. inversion Q; subst q. clear Q.
  pose proof (fill_wf _ _ F) as Wp.
  assert (Wq : proto_wf (auto_detect b p)).
  { unfold proto_wf in *. cbn. rewrite map_length. exact Wp. }
  rewrite (proto_eq_spec _ _ Wq Wp). unfold compatible. cbn [auto_detect pr_version pr_conv pr_ret pr_params].
  split.
  - intros (_&_&_&_&H). clear - H U. induction (pr_params p) as [|x l IH]; [constructor|].
    cbn [map] in H. inversion H as [|? ? ? ? Hx Hl]; subst. inversion U as [|? ? Ux Ul]; subst.
    constructor; [|exact (IH Ul Hl)]. intros (B&O&V&D). destruct Hx as (_&[T|[T|[_ T]]]).
    + revert T. unfold auto_param. destruct b; try (intros T; rewrite O in T; discriminate T);
        destruct (_ && _); cbn [set_flags pi_type]; rewrite O; discriminate.
    + rewrite O in T. discriminate T.
    + assert (E : auto_param b x = set_flags x (Z.lor (pi_flags x) PassFlag_ForcedByRef)).
      { unfold auto_param. rewrite byval_has. change PassFlag_ODtor with (2 ^ 2). rewrite has_bit by lia.
        rewrite O, V, D. destruct B as [-> | ->]; reflexivity. }
      rewrite E in T. cbn [set_flags pi_flags] in T.
      assert (G : Z.testbit (pi_flags x) 30 = true).
      { rewrite <- T. unfold PassFlag_ForcedByRef. rewrite Z.lor_spec, Z.pow2_bits_true by lia. apply orb_true_r. }
      destruct (Z.eq_dec (pi_flags x) 0) as [Z0|Z0]; [rewrite Z0, Z.bits_0 in G; discriminate|].
      rewrite Z.bits_above_log2 in G; [discriminate|lia|]. apply Z.log2_lt_pow2; lia.
  - intros H. split; [lia|]. split; [lia|]. split; [right; right; reflexivity|]. split; [apply auto_ret_size|].
    clear - H. induction H as [|x l Hx _ IH]; cbn [map]; constructor; [|exact IH].
    rewrite (auto_param_same b x Hx). split; [apply same_size_refl|]. right. right. auto.
Qed.
Print Assumptions C59_compatible.

(** On 32-bit Linux the description of a manager for a function with a by-value object
    that has a destructor does not match the description it was requested for. *)
Definition ex_dtor : rawproto :=
  RawProto 1 int_pass [RawPass 1 0 0; RawPass 16 3 5] 1 no_pass2 [no_pass2; RawPass2 0 0 300 0].
Theorem C59_forced_refuted :
  ~ (forall raw p b junk0 q, fill raw = Some p -> ok_proto p ->
     fill (Some (build_proto_info junk0 (auto_detect b p))) = Some q -> proto_eq q p = Some true).
Proof.
  intros K.
  assert (P1 : forall x, x = PassInfo 16 3 5 0 0 300 0 \/ x = PassInfo 4 1 1 0 0 0 0 -> ok_pass x).
  { intros x [-> | ->].
    - split; [auto|]. split; [left; reflexivity|]. cbn. intros _ _. repeat split; try discriminate.
    - split; [auto|]. split; [left; reflexivity|]. cbn. discriminate. }
  assert (O : ok_proto (Proto 1 1 (PassInfo 4 1 1 0 0 0 0) [PassInfo 16 3 5 0 0 300 0] 1)).
  { split; [cbn; lia|]. split; [exists false, false; reflexivity|]. split; [right; apply P1; auto|].
    constructor; [apply P1; auto|constructor]. }
  pose proof (K (Some ex_dtor) _ Gcc32 no_pass2 _ eq_refl O eq_refl) as J. vm_compute in J. discriminate J.
Qed.
Print Assumptions C59_forced_refuted.

Example C59_example : exists p, fill (Some ex_proto) = Some p /\ pr_version p = 1 /\
  Forall (fun x => pi_flags x < 2 ^ 30 /\ 0 <= pi_flags x) (pr_params p) /\ Forall (fun x => ~ forced_by_reference Gcc32 x) (pr_params p).
Proof.
  eexists. split; [reflexivity|]. split; [reflexivity|]. split; (constructor; [|constructor]); cbn [pi_flags].
  - split; vm_compute; congruence.
  - intros (_&O&_). discriminate O.
Qed.
