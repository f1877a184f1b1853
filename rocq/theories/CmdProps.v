(** C81, C82: the console list while plugins come and go. *)
From Coq Require Import List ZArith Bool Lia.
From Verif Require Import CmdModel CmdSpec CmdProofs.
Import ListNotations.
Local Open Scope Z_scope.

(** C81: for every history in which nothing is registered while it is there, Metamod's
    own objects are registered by Metamod alone and no plugin unregisters what another
    registered: the engine's list, followed to its end, holds exactly the things that
    were registered and not taken away, newest first; nothing loops. *)
Theorem C81_console : forall iscmd checks mm os n, allowed_all mm nothing os -> (length os <= n)%nat ->
  exists s, run iscmd checks n (start true) os = Some s /\
    shown n s = Some (map snd (things (spec_run nothing os))).
Proof.
  intros iscmd checks mm os n A L.
  destruct (sim_run iscmd checks mm os n (start true) nothing (inv_start iscmd mm) A L) as (s & R & I).
  exists s. split; [exact R|]. unfold shown. apply (chain_follow _ _ _ n (i_chain _ _ _ _ I)).
  rewrite map_length. pose proof (spec_run_len os nothing). cbn [things nothing length] in H. lia.
Qed.
Print Assumptions C81_console.

Lemma allowed_app mm a : forall v b, allowed_all mm v (a ++ b) <-> allowed_all mm v a /\ allowed_all mm (spec_run v a) b.
Proof.
  induction a as [|o r IH]; intros v b; [cbn; tauto|].
  cbn [app allowed_all]. rewrite IH. change (spec_run v (o :: r)) with (spec_run (spec_step v o) r). tauto.
Qed.

(** When a plugin is unloaded, or its Load says no, nothing of it stays, and everything
    else stays in its order. *)
Theorem C81_unload : forall iscmd checks mm os n id l, allowed_all mm nothing os -> (S (length os) <= n)%nat ->
  forall s, run iscmd checks n (start true) os = Some s -> shown n s = Some l ->
  exists s' l', step iscmd checks n s (Unload id) = Some s' /\ shown n s' = Some l' /\
    (forall c, In (Plugin id, c) (things (spec_run nothing os)) -> ~ In c l') /\
    l' = filter (fun c => negb (existsb (fun t => negb (not_of id t) && (snd t =? c)) (things (spec_run nothing os)))) l /\
    (exists s'', step iscmd checks n s (Refused id) = Some s'' /\ shown n s'' = Some l').
Proof.
  intros iscmd checks mm os n id l A L s R SH.
  destruct (sim_run iscmd checks mm os n (start true) nothing (inv_start iscmd mm) A ltac:(cbn [things nothing length]; lia)) as (s0 & R0 & I).
  rewrite R in R0. injection R0 as <-. set (v := spec_run nothing os) in *.
  assert (LV : (length (things v) <= n)%nat) by (pose proof (spec_run_len os nothing) as H; cbn [things nothing length] in H; fold v in H; lia).
  destruct (sim_step iscmd checks mm n s v (Unload id) I Logic.I LV) as (s1 & R1 & I1).
  destruct (sim_step iscmd checks mm n s v (Refused id) I Logic.I LV) as (s2 & R2 & I2).
  assert (LF : (length (map snd (filter (not_of id) (things v))) <= n)%nat).
  { rewrite map_length. pose proof (filter_len (not_of id) (things v)). lia. }
  exists s1, (map snd (filter (not_of id) (things v))).
  split; [exact R1|]. split; [apply (chain_follow _ _ _ n (i_chain _ _ _ _ I1)); exact LF|].
  assert (E : l = map snd (things v)).
  { unfold shown in SH. rewrite (chain_follow _ _ _ n (i_chain _ _ _ _ I)) in SH by (rewrite map_length; exact LV). congruence. }
  split; [|split].
  - intros c T X. apply in_map_iff in X as ((w, d) & Ed & X). cbn [snd] in Ed. subst d. apply filter_In in X as (X & K).
    rewrite (nodup_snd_inj _ w _ c (i_nodup _ _ _ _ I) X T) in K. unfold not_of in K. cbn [fst] in K.
    rewrite Z.eqb_refl in K. discriminate.
  - subst l. pose proof (i_nodup _ _ _ _ I) as ND. clear - ND.
    assert (G : forall ts, (forall t, In t ts -> In t (things v)) -> map snd (filter (not_of id) ts) =
      filter (fun c => negb (existsb (fun t => negb (not_of id t) && (snd t =? c)) (things v))) (map snd ts)).
    { induction ts as [|t r IH]; intros H; [reflexivity|]. cbn [filter map].
      assert (Q : not_of id t = negb (existsb (fun u => negb (not_of id u) && (snd u =? snd t)) (things v))).
      { destruct (existsb (fun u => negb (not_of id u) && (snd u =? snd t)) (things v)) eqn:X; cbn [negb].
        - apply existsb_exists in X as (u & U & X). apply andb_true_iff in X as (X & Y). apply Z.eqb_eq in Y.
          assert (EQ : u = t). { destruct u as (w, c), t as (w', c'). cbn [snd] in Y. subst c'. f_equal.
            exact (nodup_snd_inj _ w w' c ND U (H _ (or_introl eq_refl))). }
          subst u. apply negb_true_iff in X. exact X.
        - destruct (not_of id t) eqn:N; [reflexivity|]. exfalso.
          enough (Z1 : existsb (fun u => negb (not_of id u) && (snd u =? snd t)) (things v) = true) by congruence.
          apply existsb_exists. exists t. split; [apply H; now left|]. rewrite N, Z.eqb_refl. reflexivity. }
      rewrite <- Q. destruct (not_of id t); cbn [map]; [f_equal|]; apply IH; intros u U; apply H; now right. }
    apply G. auto.
  - exists s2. split; [exact R2|]. apply (chain_follow _ _ _ n (i_chain _ _ _ _ I2)). exact LF.
Qed.
Print Assumptions C81_unload.

Definition ex_iscmd (c : Z) : bool := Z.even c.
Definition ex_mm (c : Z) : bool := (c =? 90) || (c =? 91).
Definition ex_ops : list op :=
  [EReg 2; EReg 3; MReg 90; MReg 91; Loaded 1 500; PReg 500 10; PReg 500 11; Loaded 2 600; PReg 600 12; PReg 500 14;
   PUnreg 500 11; Refused 2; Loaded 3 700; PReg 700 13; PReg 700 12; PUnreg 700 9; PReg 500 11; PUnreg 800 2].
Example C81_example : allowed_all ex_mm nothing ex_ops /\
  shown 40 (match run ex_iscmd false 40 (start true) ex_ops with Some s => s | None => start true end) = Some [11; 12; 13; 14; 10; 91; 90; 3] /\
  shown 40 (match run ex_iscmd true 40 (start true) (ex_ops ++ [Unload 1; MRemoveAll]) with Some s => s | None => start true end) = Some [12; 13; 3].
Proof.
  split; [|split; vm_compute; reflexivity].
  cbn. unfold fresh. cbn. repeat match goal with |- _ /\ _ => split end; try discriminate; try reflexivity; try lia;
    try (intros H; repeat destruct H as [H|H]; discriminate || contradiction || lia);
    intros i H; repeat destruct H as [H|H]; try discriminate; try contradiction; injection H as <-; reflexivity.
Qed.

(** C82: what the rules are for, and what is not covered by them. *)

(** Registered twice: the engine's list never ends (an engine that puts everything in
    front), or it ends with the thing and all behind it is lost (an engine that leaves
    alone what it has). *)
Lemma cycle_none (nx : Z -> Z) (P : Z -> Prop) : (forall x, P x -> x <> 0 /\ P (nx x)) -> forall k x, P x -> follow k nx x = None.
Proof.
  intros H. induction k as [|k IH]; intros x Px; destruct (H x Px) as (N & Pn); apply Z.eqb_neq in N;
    cbn [follow]; rewrite N; [reflexivity|]. rewrite (IH _ Pn). reflexivity.
Qed.

Lemma chain_head nx a l1 c l2 : chain nx a (l1 ++ c :: l2) -> In a (l1 ++ [c]).
Proof. destruct l1 as [|x r]; cbn [app chain In]; intros (-> & _); now left. Qed.

Lemma chain_next nx c l2 : forall l1 a x, chain nx a (l1 ++ c :: l2) -> In x l1 -> x <> 0 /\ In (nx x) (l1 ++ [c]).
Proof.
  induction l1 as [|y r IH]; cbn [app chain In]; intros a x C X; [contradiction|]. destruct C as (-> & N & C).
  destruct X as [<-|X].
  - split; [exact N|]. right. exact (chain_head _ _ _ _ _ C).
  - destruct (IH _ x C X) as (NX & I). split; [exact NX|now right].
Qed.

Lemma chain_mid nx c l2 : forall l1 a, chain nx a (l1 ++ c :: l2) -> c <> 0.
Proof. induction l1 as [|y r IH]; cbn [app chain]; intros a C; destruct C as (-> & N & C); [exact N|exact (IH _ C)]. Qed.

Lemma chain_cut nx c l2 : forall l1 a, chain nx a (l1 ++ c :: l2) -> NoDup (l1 ++ c :: l2) -> chain (upd nx c 0) a (l1 ++ [c]).
Proof.
  induction l1 as [|y r IH]; cbn [app chain]; intros a C ND.
  - destruct C as (-> & N & _). split; [reflexivity|]. split; [exact N|]. apply upd_same.
  - destruct C as (-> & N & C). apply NoDup_cons_iff in ND as (NI & ND). split; [reflexivity|]. split; [exact N|].
    rewrite upd_other; [exact (IH _ C ND)|]. intros ->. apply NI. apply in_app_iff. right. now left.
Qed.

Theorem C82_registered_twice_refuted : forall iscmd mm os n api c l1 l2, allowed_all mm nothing os -> (length os <= n)%nat ->
  map snd (things (spec_run nothing os)) = l1 ++ c :: l2 ->
  (forall s, run iscmd false n (start true) os = Some s -> exists s', step iscmd false n s (PReg api c) = Some s' /\
     forall k, shown k s' = None) /\
  (forall s, run iscmd true n (start true) os = Some s -> exists s', step iscmd true n s (PReg api c) = Some s' /\
     shown n s' = Some (l1 ++ [c])).
Proof.
  intros iscmd mm os n api c l1 l2 A L E.
  assert (LV : (length (l1 ++ c :: l2) <= n)%nat).
  { rewrite <- E, map_length. pose proof (spec_run_len os nothing) as H. cbn [things nothing length] in H. lia. }
  assert (TR : forall f s, next (track f (iscmd c) api s) = next s /\ top (track f (iscmd c) api s) = top s).
  { intros f s. unfold track. destruct (find_by_api (plugs s) api); split; reflexivity. }
  split; intros s R.
  - destruct (sim_run iscmd false mm os n (start true) nothing (inv_start iscmd mm) A L) as (s0 & R0 & I).
    rewrite R in R0. injection R0 as <-. pose proof (i_chain _ _ _ _ I) as C. rewrite E in C.
    pose proof (i_nodup _ _ _ _ I) as ND. rewrite E in ND.
    eexists. split; [reflexivity|]. destruct (TR (fun l => l ++ [c]) s) as (TN & TT). unfold shown. cbn [engine_register next top].
    rewrite TN, TT. intros k. apply (cycle_none _ (fun x => In x (l1 ++ [c]))); [|apply in_app_iff; right; now left].
    intros x X. destruct (Z.eq_dec x c) as [->|NX].
    + split; [exact (chain_mid _ _ _ _ _ C)|]. rewrite upd_same. exact (chain_head _ _ _ _ _ C).
    + rewrite !upd_other by exact NX. apply in_app_iff in X as [X|[X|[]]]; [|congruence]. exact (chain_next _ _ _ _ _ _ C X).
  - destruct (sim_run iscmd true mm os n (start true) nothing (inv_start iscmd mm) A L) as (s0 & R0 & I).
    rewrite R in R0. injection R0 as <-. pose proof (i_chain _ _ _ _ I) as C. rewrite E in C.
    pose proof (i_nodup _ _ _ _ I) as ND. rewrite E in ND.
    cbn [step]. unfold do_register. destruct (TR (fun l => l ++ [c]) s) as (TN & TT). unfold shown. rewrite TN, TT.
    rewrite (chain_follow _ _ _ n C LV).
    assert (X : existsb (Z.eqb c) (l1 ++ c :: l2) = true).
    { apply existsb_exists. exists c. split; [apply in_app_iff; right; now left|apply Z.eqb_refl]. }
    rewrite X. eexists. split; [reflexivity|]. cbn [next top].
    apply chain_follow; [exact (chain_cut _ _ _ _ _ C ND)|].
    rewrite app_length in *. cbn [length] in *. lia.
Qed.
Print Assumptions C82_registered_twice_refuted.
Example C82_twice_example : map snd (things (spec_run nothing ex_ops)) = [11; 12] ++ 13 :: [14; 10; 91; 90; 3].
Proof. vm_compute. reflexivity. Qed.

(** Without the head of the list nothing is ever taken out: unloading a plugin leaves
    its things where they are, the library behind them is gone. *)
Theorem C82_head_unknown : forall n e s, found s = false ->
  exists s', unreg_all n s e = Some s' /\ next s' = next s /\ top s' = top s.
Proof.
  intros n e s F.
  assert (U : forall cs s, found s = false -> unregister_each n s cs = Some s).
  { induction cs as [|c r IH]; intros s0 F0; cbn [unregister_each]; [reflexivity|]. unfold unregister. rewrite F0. cbn [negb orb].
    destruct (c =? 0); rewrite (IH s0 F0); reflexivity. }
  unfold unreg_all. rewrite (U _ _ F). rewrite U by exact F. eexists. split; [reflexivity|]. split; reflexivity.
Qed.
Print Assumptions C82_head_unknown.

Theorem C82_head_unknown_refuted : exists os s, allowed_all (fun _ => false) nothing os /\
  run ex_iscmd false 9 (start false) os = Some s /\ plugs s = [] /\ things (spec_run nothing os) = [] /\ shown 9 s = Some [10].
Proof.
  exists [Loaded 1 500; PReg 500 10; Unload 1]. eexists. split; [|split; [vm_compute; reflexivity|]].
  - cbn. unfold fresh. cbn. repeat split; try tauto; discriminate.
  - split; [reflexivity|split; vm_compute; reflexivity].
Qed.
Print Assumptions C82_head_unknown_refuted.

(** On Linux the search for the head reports success without having one exactly if the
    engine's library can be opened but has no such symbol; the search by signature is
    then not tried, though it might find it.  On Windows success means it was found. *)
Theorem C82_init : forall file handle sym sig at_sig, at_sig <> 0 ->
  (fst (init_linux file handle sym sig at_sig) = true /\ snd (init_linux file handle sym sig at_sig) = 0 <->
   file = true /\ handle = true /\ sym = 0) /\
  (fst (init_windows sig at_sig) = true -> snd (init_windows sig at_sig) <> 0).
Proof.
  intros file handle sym sig at_sig N. unfold init_linux, init_windows. split.
  - destruct file, handle, sig; cbn [andb fst snd]; intuition (try congruence; try discriminate).
  - destruct sig; cbn [fst snd]; [intros _; exact N|discriminate].
Qed.
Print Assumptions C82_init.

Theorem C82_init_refuted : exists file handle sym sig at_sig, sig = true /\ at_sig <> 0 /\
  init_linux file handle sym sig at_sig = (true, 0).
Proof. exists true, true, 0, true, 4096. repeat split; discriminate. Qed.
Print Assumptions C82_init_refuted.

(** A plugin that unregisters another plugin's thing leaves it in the other's list: the
    other's unloading takes it away from whoever registered it since. *)
Theorem C82_foreign_refuted : exists os s, run ex_iscmd false 20 (start true) os = Some s /\
  things (spec_run nothing os) = [(Plugin 2, 10)] /\ shown 20 s = Some [].
Proof.
  exists [Loaded 1 500; Loaded 2 600; PReg 500 10; PUnreg 600 10; PReg 600 10; Unload 1]. eexists.
  split; [vm_compute; reflexivity|]. split; vm_compute; reflexivity.
Qed.
Print Assumptions C82_foreign_refuted.

(** What is registered with an API that is not (yet, or any more) in the plugin list is
    nobody's and stays after the plugin is gone. *)
Theorem C82_untracked_refuted : exists os s, allowed_all (fun _ => false) nothing os /\
  run ex_iscmd false 20 (start true) os = Some s /\
  os = [PReg 500 10; Loaded 1 500; PReg 500 12; Unload 1] /\ shown 20 s = Some [10].
Proof.
  exists [PReg 500 10; Loaded 1 500; PReg 500 12; Unload 1]. eexists.
  split; [|split; [vm_compute; reflexivity|split; [reflexivity|vm_compute; reflexivity]]].
  cbn. unfold fresh. cbn. repeat split; try discriminate; intuition discriminate.
Qed.
Print Assumptions C82_untracked_refuted.
