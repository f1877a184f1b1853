(** C87: console commands and variables of plugins on Source 2. *)
From Coq Require Import List ZArith Bool Lia.
From Verif Require Import CmdModel S2cModel S2cSpec S2cProofs.
Import ListNotations.
Local Open Scope Z_scope.

(** Two plugins: plugin 1 (API 11) has command object 100 and variable object 200,
    plugin 2 (API 12) has command object 101; handles are the last digits. *)
Definition ex_hc (r : Z) : Z := r - 100.
Definition ex_hv (r : Z) : Z := r - 200.
Definition ex_ops : list op :=
  [ECmd 9 0; Loaded 1 11; ECmd 0 4; RegCmd 11 100; EVar 0; RegVar 11 200;
   Loaded 2 12; ECmd 1 0; RegCmd 12 101; EVar 1; RegVar 12 201].

(** After any calls every command looks as the calls say: in the console's search
    or not, working or not, with the other flags it was made with; and every
    variable is usable or not as the calls say. *)
Theorem C87_as_told : forall hc hv os s, lawful0 os -> run hc hv start os = Some s ->
  (forall k, shown_cmd s k = cmd_look hc (Sp [] [] []) k None os) /\
  (forall k, shown_var s k = option_map (@Some bool) (var_look hv (Sp [] [] []) k None os)).
Proof.
  intros hc hv os s L H. split; intro k.
  - apply (run_cmd hc hv os start _ s k start_agrees L H).
  - apply (run_var hc hv os start _ s k None start_agrees L H). reflexivity.
Qed.
Print Assumptions C87_as_told.

Example C87_as_told_example : lawful0 (ex_ops ++ [Unload 1]) /\
  exists s, run ex_hc ex_hv start (ex_ops ++ [Unload 1]) = Some s /\
    shown_cmd s 0 = Some (Look false false 4) /\ shown_cmd s 1 = Some (Look true true 0) /\
    shown_cmd s 9 = Some (Look true true 0) /\
    shown_var s 0 = Some (Some false) /\ shown_var s 1 = Some (Some true).
Proof.
  split; [cbn; repeat split; try lia; intuition lia|].
  eexists; split; [vm_compute; reflexivity|]. repeat split; vm_compute; reflexivity.
Qed.

(** No call touches something that is not there, as long as plugins hand over
    references to what the engine made. *)
Theorem C87_safe : forall hc hv os, lawful0 os -> named hc hv [] [] os -> run hc hv start os <> None.
Proof.
  intros hc hv os L N. refine (run_named hc hv os start _ [] [] start_agrees _ L N _ _); cbn; try contradiction.
  intros i b r [].
Qed.
Print Assumptions C87_safe.

Example C87_safe_example : named ex_hc ex_hv [] [] (ex_ops ++ [UnregCmd 11 100; Unload 2]).
Proof. vm_compute. repeat (split; [auto|]). exact I. Qed.

(** Unloading a plugin, or a refused load, turns off all the plugin still has
    registered, and nothing else. *)
Theorem C87_unload : forall hc hv os s id o s', lawful0 os -> run hc hv start os = Some s ->
  o = Unload id \/ o = Refused id -> step hc hv s o = Some s' ->
  (forall r, In (id, true, r) (force (nexts os)) ->
     exists c, cmds s' (hc r) = Some c /\ c_calls c = false /\ Z.testbit (c_flags c) 1 = true) /\
  (forall r, In (id, false, r) (force (nexts os)) -> vars s' (hv r) = Some (Var false false)) /\
  (forall k, (forall r, In (id, true, r) (force (nexts os)) -> hc r <> k) -> cmds s' k = cmds s k) /\
  (forall k, (forall r, In (id, false, r) (force (nexts os)) -> hv r <> k) -> vars s' k = vars s k) /\
  (forall i b r, In (i, b, r) (force (nexts (os ++ [o]))) <-> In (i, b, r) (force (nexts os)) /\ i <> id).
Proof.
  intros hc hv os s id o s' L H Ho S.
  pose proof (run_agrees hc hv os start _ s start_agrees L H) as A. fold (nexts os) in A.
  assert (OK : step_ok (nexts os) o) by (destruct Ho; subst o; exact I).
  destruct (step_does hc hv _ _ _ _ A OK S) as [A1 [C V]].
  assert (TC : forall k, touch_cmd hc (nexts os) k o =
     if existsb (fun a : reg => (fst (fst a) =? id) && snd (fst a) && (hc (snd a) =? k)) (force (nexts os)) then Off else Nothing)
    by (intro k; destruct Ho; subst o; reflexivity).
  assert (TV : forall k v, varn hv (nexts os) k o v =
     if existsb (fun a : reg => (fst (fst a) =? id) && negb (snd (fst a)) && (hv (snd a) =? k)) (force (nexts os))
     then option_map (fun _ => Var false false) v else v)
    by (intros k v; destruct Ho; subst o; reflexivity).
  assert (EX : In id (map fst (on (nexts os))) -> exists e, In e (books s) /\ e_id e = id /\ find_by_id (books s) id = Some e /\ e_api e <> 0).
  { intro Hin. rewrite (a_on _ _ A) in Hin. unfold listed in Hin. rewrite map_map in Hin.
    apply in_map_iff in Hin. destruct Hin as [e' [E He']]. apply filter_In in He'. destruct He' as [He' Q].
    cbn in E. apply negb_true_iff, Z.eqb_neq in Q.
    exists e'. split; [exact He'|]. split; [exact E|]. split; [|exact Q].
    pose proof (a_nodup _ _ A) as ND. unfold find_by_id. clear - ND He' E.
    induction (books s) as [|y l IH]; [destruct He'|]. cbn [map] in ND. inversion ND as [|? ? N1 N2]; subst.
    cbn [find]. destruct He' as [He'|He'].
    - subst y. rewrite Z.eqb_refl. reflexivity.
    - destruct (e_id y =? e_id e') eqn:Q; [|apply IH; assumption].
      exfalso. apply Z.eqb_eq in Q. apply N1. rewrite Q. apply in_map, He'. }
  assert (K : forall s1 e, unreg_all hc hv s e = Some s1 ->
     (forall r, In r (e_cmds e) -> cmds s (hc r) <> None) /\ (forall r, In r (e_cvars e) -> vars s (hv r) <> None)).
  { intros s1 e U. unfold unreg_all in U.
    destruct (each (prov_unreg_var hv) s (e_cvars e)) as [s2|] eqn:E1; [|discriminate]. cbv zeta in U.
    destruct (each (prov_unreg_cmd hc) (set_books s2 (on_list (fun _ => []) false (e_id e) (books s2))) (e_cmds e)) as [s3|] eqn:E3; [|discriminate].
    pose proof (each_var hv _ _ _ E1) as [_ [C1 _]].
    split.
    - assert (G : forall l t t', each (prov_unreg_cmd hc) t l = Some t' -> forall r, In r l -> cmds t (hc r) <> None).
      { induction l as [|q l IH]; intros t t' G r Hr; [destruct Hr|]. cbn [each] in G. unfold prov_unreg_cmd at 1 in G.
        destruct (cmds t (hc q)) eqn:Q; [|discriminate]. destruct Hr as [Hr|Hr]; [subst q; rewrite Q; discriminate|].
        specialize (IH _ _ G r Hr). cbn [cmds] in IH. unfold set in IH. destruct (hc r =? hc q) eqn:W; [|exact IH].
        apply Z.eqb_eq in W. rewrite W, Q. discriminate. }
      intros r Hr. pose proof (G _ _ _ E3 r Hr) as G1. cbn [set_books cmds] in G1. rewrite C1 in G1. exact G1.
    - assert (G : forall l t t', each (prov_unreg_var hv) t l = Some t' -> forall r, In r l -> vars t (hv r) <> None).
      { induction l as [|q l IH]; intros t t' G r Hr; [destruct Hr|]. cbn [each] in G. unfold prov_unreg_var at 1 in G.
        destruct (vars t (hv q)) eqn:Q; [|discriminate]. destruct Hr as [Hr|Hr]; [subst q; rewrite Q; discriminate|].
        specialize (IH _ _ G r Hr). cbn [vars] in IH. unfold set in IH. destruct (hv r =? hv q) eqn:W; [|exact IH].
        apply Z.eqb_eq in W. rewrite W, Q. discriminate. }
      apply (G _ _ _ E1). }
  assert (KK : forall b r, In (id, b, r) (force (nexts os)) -> if b then cmds s (hc r) <> None else vars s (hv r) <> None).
  { intros b r Hin. destruct (EX (a_live _ _ A _ Hin)) as [e [E1 [E2 [E3 E4]]]].
    assert (U : exists s1, unreg_all hc hv s e = Some s1).
    { destruct Ho; subst o; cbn [step] in S; rewrite E3 in S; [apply Z.eqb_neq in E4; rewrite E4 in S|];
        destruct (unreg_all hc hv s e) as [s1|]; try discriminate; exists s1; reflexivity. }
    destruct U as [s1 U]. destruct (K s1 e U) as [K1 K2]. destruct (a_lists _ _ A e E1) as [L1 L2].
    assert (O : In r (objs (force (nexts os)) id b)).
    { unfold objs. apply in_map_iff. exists (id, b, r). split; [reflexivity|]. apply filter_In. split; [exact Hin|].
      cbn [fst snd]. rewrite Z.eqb_refl, eqb_reflx. reflexivity. }
    rewrite E2 in L1, L2. destruct b; [apply K1; rewrite L1|apply K2; rewrite L2]; exact O. }
  split; [|split; [|split; [|split]]].
  - intros r Hin. rewrite C, TC.
    assert (X : existsb (fun a : reg => (fst (fst a) =? id) && snd (fst a) && (hc (snd a) =? hc r)) (force (nexts os)) = true).
    { apply existsb_exists. exists (id, true, r). split; [exact Hin|]. cbn [fst snd]. rewrite !Z.eqb_refl. reflexivity. }
    rewrite X. pose proof (KK true r Hin) as Q. cbn in Q. destruct (cmds s (hc r)) as [c|]; [|contradiction].
    cbn [cmd_next]. eexists. split; [reflexivity|]. split; [reflexivity|]. cbn [c_flags].
    rewrite Z.lor_spec. change (Z.testbit 2 1) with true. apply orb_true_r.
  - intros r Hin. rewrite V, TV.
    assert (X : existsb (fun a : reg => (fst (fst a) =? id) && negb (snd (fst a)) && (hv (snd a) =? hv r)) (force (nexts os)) = true).
    { apply existsb_exists. exists (id, false, r). split; [exact Hin|]. cbn [fst snd]. rewrite !Z.eqb_refl. reflexivity. }
    rewrite X. pose proof (KK false r Hin) as Q. cbn in Q. destruct (vars s (hv r)) as [c|]; [|contradiction]. reflexivity.
  - intros k N. rewrite C, TC.
    destruct (existsb (fun a : reg => (fst (fst a) =? id) && snd (fst a) && (hc (snd a) =? k)) (force (nexts os))) eqn:X.
    + exfalso. apply existsb_exists in X. destruct X as [[[i b] r] [X1 X2]]. cbn [fst snd] in X2.
      rewrite !andb_true_iff, !Z.eqb_eq in X2. destruct X2 as [[X2 X3] X4]. subst i b. exact (N r X1 X4).
    + destruct (cmds s k); reflexivity.
  - intros k N. rewrite V, TV.
    destruct (existsb (fun a : reg => (fst (fst a) =? id) && negb (snd (fst a)) && (hv (snd a) =? k)) (force (nexts os))) eqn:X; [|reflexivity].
    exfalso. apply existsb_exists in X. destruct X as [[[i b] r] [X1 X2]]. cbn [fst snd] in X2.
    rewrite !andb_true_iff, !Z.eqb_eq, negb_true_iff in X2. destruct X2 as [[X2 X3] X4]. subst i b. exact (N r X1 X4).
  - intros i b r. unfold nexts. rewrite fold_left_app. cbn [fold_left]. fold (nexts os).
    assert (G : force (next (nexts os) o) = filter (fun a => negb (fst (fst a) =? id)) (force (nexts os)))
      by (destruct Ho; subst o; reflexivity).
    rewrite G, filter_In. cbn [fst]. rewrite negb_true_iff, Z.eqb_neq. reflexivity.
Qed.
Print Assumptions C87_unload.

Example C87_unload_example : lawful0 ex_ops /\ In (1, true, 100) (force (nexts ex_ops)) /\
  In (1, false, 200) (force (nexts ex_ops)) /\ In (2, true, 101) (force (nexts ex_ops)) /\
  exists s s', run ex_hc ex_hv start ex_ops = Some s /\ step ex_hc ex_hv s (Unload 1) = Some s'.
Proof.
  split; [cbn; repeat split; try lia; intuition lia|].
  split; [vm_compute; auto|]. split; [vm_compute; auto|]. split; [vm_compute; auto|].
  do 2 eexists; split; vm_compute; reflexivity.
Qed.

(** A plugin that is loaded anew gets its command back: shown and working, with the
    other flags as before. *)
Theorem C87_reload : forall hc hv os s api r fl c, lawful0 os -> api <> 0 -> run hc hv start os = Some s ->
  cmds s (hc r) = Some c ->
  exists s' c', run hc hv s [ECmd (hc r) fl; RegCmd api r] = Some s' /\ cmds s' (hc r) = Some c' /\
    c_calls c' = true /\ Z.testbit (c_flags c') 1 = false /\
    (forall i, i <> 1 -> Z.testbit (c_flags c') i = Z.testbit (c_flags c) i) /\
    (forall k, k <> hc r -> cmds s' k = cmds s k) /\ vars s' = vars s.
Proof.
  intros hc hv os s api r fl c L Ha H E. cbn [run step].
  pose proof (run_agrees hc hv os start _ s start_agrees L H) as A.
  assert (S1 : exists s', step hc hv (engine_cmd s (hc r) fl) (RegCmd api r) = Some s').
  { cbn [step]. unfold prov_reg_cmd. rewrite (proj1 (track_engine _ _ _ _)). cbn [engine_cmd cmds]. unfold set.
    rewrite Z.eqb_refl, E. eexists; reflexivity. }
  destruct S1 as [s' S1]. cbn [step] in S1.
  destruct (step_does hc hv (engine_cmd s (hc r) fl) (nexts os) (RegCmd api r) s') as [_ [C V]];
    [exact A|exact Ha|exact S1|].
  rewrite S1. exists s'. specialize (C (hc r)) as Cr. cbn [touch_cmd] in Cr. rewrite Z.eqb_refl in Cr.
  cbn [engine_cmd cmds] in Cr. unfold set in Cr. rewrite Z.eqb_refl, E in Cr. cbn [cmd_next c_flags c_calls] in Cr.
  eexists. split; [reflexivity|]. split; [exact Cr|]. cbn [c_calls c_flags]. split; [reflexivity|].
  split; [rewrite Z.ldiff_spec; change (Z.testbit 2 1) with true; apply andb_false_r|].
  split; [|split].
  - intros i Hi. rewrite Z.ldiff_spec. destruct (Z.eq_dec i 1) as [->|N]; [congruence|].
    destruct (Z_lt_le_dec i 0) as [Q|Q]; [rewrite !Z.testbit_neg_r by exact Q; reflexivity|].
    change 2 with (2 ^ 1). rewrite Z.pow2_bits_false by lia. apply andb_true_r.
  - intros k Hk. rewrite C. cbn [touch_cmd]. replace (hc r =? k) with false by (symmetry; apply Z.eqb_neq; congruence).
    cbn [engine_cmd cmds]. unfold set. replace (k =? hc r) with false by (symmetry; apply Z.eqb_neq; congruence).
    destruct (cmds s k); reflexivity.
  - unfold prov_reg_cmd in S1. rewrite (proj1 (track_engine _ _ _ _)) in S1.
    destruct (cmds (engine_cmd s (hc r) fl) (hc r)) as [c0|]; [|discriminate].
    destruct (negb (Z.land (c_flags c0) FCVAR_DEVELOPMENTONLY =? 0)); inversion S1; subst s'; cbn [vars];
      rewrite (proj2 (track_engine _ _ _ _)); reflexivity.
Qed.
Print Assumptions C87_reload.

Example C87_reload_example : lawful0 (ex_ops ++ [Unload 1; Loaded 3 13]) /\
  exists s, run ex_hc ex_hv start (ex_ops ++ [Unload 1; Loaded 3 13]) = Some s /\ cmds s (ex_hc 100) = Some (Cmd 6 false).
Proof.
  split; [cbn; repeat split; try lia; intuition lia|]. eexists; split; vm_compute; reflexivity.
Qed.

(** A command that its plugin made for developers only is shown to everyone once it is
    registered. *)
Theorem C87_developer_refuted : exists os s, lawful0 os /\ run ex_hc ex_hv start os = Some s /\
  In (ECmd 0 FCVAR_DEVELOPMENTONLY) os /\ shown_cmd s 0 = Some (Look true true 0).
Proof.
  exists [Loaded 1 11; ECmd 0 FCVAR_DEVELOPMENTONLY; RegCmd 11 100]. eexists.
  split; [cbn; repeat split; try lia; intuition lia|]. split; [vm_compute; reflexivity|].
  split; [cbn; auto|vm_compute; reflexivity].
Qed.
Print Assumptions C87_developer_refuted.

(** Two plugins with a command of the same name (one entry in the engine): unloading
    one turns off the command of the other, which is still registered. *)
Theorem C87_shared_refuted : exists hc os s, lawful0 os /\ run hc ex_hv start os = Some s /\
  In (2, true, 101) (force (nexts os)) /\ shown_cmd s (hc 101) = Some (Look false false 0).
Proof.
  exists (fun _ => 0), [Loaded 1 11; ECmd 0 0; RegCmd 11 100; Loaded 2 12; ECmd 0 0; RegCmd 12 101; Unload 1]. eexists.
  split; [cbn; repeat split; try lia; intuition lia|]. split; [vm_compute; reflexivity|].
  split; vm_compute; auto.
Qed.
Print Assumptions C87_shared_refuted.

(** A command handed to the old RegisterConCommandBase goes into the list of
    variables: unloading the plugin leaves the command as it is and turns off a
    variable, whatever variable the reference happens to name. *)
Theorem C87_old_function_refuted : exists s s1 s2,
  run ex_hc (fun _ => 7) start [EVar 7; Loaded 1 11; ECmd 0 0] = Some s /\
  reg_base ex_hc (fun _ => 7) s 11 100 = Some s1 /\
  step ex_hc (fun _ => 7) s1 (Unload 1) = Some s2 /\
  shown_cmd s2 0 = Some (Look true true 0) /\ shown_var s2 7 = Some (Some false).
Proof.
  do 3 eexists. split; [vm_compute; reflexivity|]. split; [vm_compute; reflexivity|].
  split; [vm_compute; reflexivity|]. split; vm_compute; reflexivity.
Qed.
Print Assumptions C87_old_function_refuted.

(** Metamod:Source's own variables: made any number of times at fresh addresses, each has the
    flags asked for and no other, and the shutdown deletes each of them once. *)
Definition makes (l : list (Z * Z)) (s : own) : own := fold_left (fun s p => create s (fst p) (snd p)) l s.

Theorem C87_own : forall l, NoDup (map fst l) ->
  let s := makes l (Own [] [] (fun _ => 0)) in
  (forall a fl, In (a, fl) l -> In a (live s) /\
     forall i, 0 <= i -> Z.testbit (has s a) i = ((i =? 8) && Z.testbit fl 0) || ((i =? 6) && Z.testbit fl 1)) /\
  exists s', shutdown s = Some s' /\ live s' = [].
Proof.
  assert (M : forall l s, made (makes l s) = made s ++ map fst l /\ live (makes l s) = rev (map fst l) ++ live s /\
     (forall a, ~ In a (map fst l) -> has (makes l s) a = has s a)).
  { induction l as [|[a fl] l IH]; intro s; cbn [makes fold_left map fst snd rev app].
    - rewrite app_nil_r. auto.
    - fold (makes l (create s a fl)). destruct (IH (create s a fl)) as [M1 [M2 M3]]. rewrite M1, M2. cbn [create made live].
      rewrite <- !app_assoc. split; [reflexivity|]. split; [reflexivity|]. intros b Hb. rewrite M3 by (intro Q; apply Hb; right; exact Q).
      cbn [create has]. unfold set. replace (b =? a) with false; [reflexivity|]. symmetry; apply Z.eqb_neq. intro Q; apply Hb; left; auto. }
  assert (H : forall l s a fl, NoDup (map fst l) -> In (a, fl) l -> has (makes l s) a = new_flags fl).
  { induction l as [|[b gl] l IH]; intros s a fl N Hin; [destruct Hin|]. cbn [map fst] in N. inversion N as [|? ? N1 N2]; subst.
    cbn [makes fold_left fst snd]. fold (makes l (create s b gl)). destruct Hin as [Hin|Hin]; [|apply IH; assumption].
    inversion Hin; subst. rewrite (proj2 (proj2 (M l _))) by exact N1. cbn [create has]. unfold set. rewrite Z.eqb_refl. reflexivity. }
  intros l N s. destruct (M l (Own [] [] (fun _ => 0))) as [M1 [M2 M3]]. fold s in M1, M2, M3. cbn [made live app] in M1, M2.
  rewrite app_nil_r in M2. split.
  - intros a fl Hin. split.
    + rewrite M2. apply in_rev. rewrite rev_involutive. apply (in_map fst) in Hin. exact Hin.
    + intros i Hi. unfold s. rewrite (H l _ a fl N Hin). unfold new_flags, ConVarFlag_Notify, ConVarFlag_SpOnly.
      rewrite land2, negb_involutive.
      assert (L1 : (Z.land fl 1 =? 0) = negb (Z.testbit fl 0)).
      { change 1 with (Z.ones 1). rewrite Z.land_ones by lia. change (2 ^ 1) with 2. rewrite Zmod_even, <- Z.negb_odd, <- Z.bit0_odd.
        destruct (Z.testbit fl 0); reflexivity. }
      cbv zeta. rewrite L1, negb_involutive. unfold FCVAR_NOTIFY, FCVAR_SPONLY.
      change 256 with (2 ^ 8). change 64 with (2 ^ 6).
      destruct (Z.testbit fl 0), (Z.testbit fl 1); rewrite ?Z.lor_0_l, ?Z.lor_spec, ?Z.pow2_bits_eqb, ?Z.bits_0 by lia;
        rewrite ?(Z.eqb_sym 8), ?(Z.eqb_sym 6), ?andb_true_r, ?andb_false_r, ?orb_false_r; reflexivity.
  - unfold shutdown. rewrite (delete_all (made s) (live s)).
    + eexists; split; reflexivity.
    + rewrite M1. exact N.
    + intro a. rewrite M1, M2. apply in_rev.
    + rewrite M2. apply NoDup_rev. exact N.
Qed.
Print Assumptions C87_own.

Example C87_own_example : NoDup (map fst [(10, 3); (20, 2); (30, 0)]) /\
  has (makes [(10, 3); (20, 2); (30, 0)] (Own [] [] (fun _ => 0))) 10 = 320.
Proof. split; [|vm_compute; reflexivity]. cbn. repeat constructor; cbn; lia. Qed.

(** The list is not emptied: a second shutdown deletes the variables again. *)
Theorem C87_twice_refuted : exists s, shutdown (makes [(10, 3)] (Own [] [] (fun _ => 0))) = Some s /\ shutdown s = None.
Proof. eexists; split; vm_compute; reflexivity. Qed.
Print Assumptions C87_twice_refuted.
