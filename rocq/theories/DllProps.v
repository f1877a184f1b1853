(** C51: the loader in place of the game library. *)
From Coq Require Import List Bool Arith Lia.
From Verif Require Import DllModel DllSpec DllProofs.
Import ListNotations.

(** C51 for one DLLInit, in any state with the init entry patched: unless the core is not
    there and the game refuses, it is well defined; the game's own function is called
    exactly once; afterwards the init entry holds the original, the shutdown entry holds
    the loader's function iff the core is up and the game accepted, every other entry is
    what the others made of it, other tables are untouched, and the core stays loaded iff
    it is up and the game accepted. *)
Theorem C51_init : forall s o h a, iface s = Some h -> bridge s = false -> core s = false ->
  orig_init s = a -> a <> TInit -> core_up o = true \/ o_result o = true ->
  exists s', DLLInit s o = Some (s', o_result o) /\
    (forall j, vt s' h j = if j =? 0 then a
                           else if core_up o && o_result o && (j =? o_index o) then TShutdown
                           else others o (vt s h) j) /\
    (forall k, k <> h -> vt s' k = vt s k) /\
    trace s' = trace s ++ CallInit a :: (if core_up o && negb (o_result o) then [CoreUnload] else []) /\
    bridge s' = core_up o && o_result o /\ core s' = core_up o && o_result o /\ opened s' = opened s.
Proof.
  intros s o h a H1 H2 H3 H4 H5 H6.
  destruct (DLLInit_spec s o h a H1 H2 H3 H4 H5 H6) as (s' & E & T1 & T2 & T3 & T4 & T5 & _ & _ & _ & T9 & _ & _).
  exists s'. auto 10.
Qed.
Print Assumptions C51_init.

(** C51 is not met when the core is not there and the game's DLLInit returns false: the
    null bridge is dereferenced. *)
Theorem C51_failed_init_refuted : forall s o h, iface s = Some h -> bridge s = false ->
  core_up o = false -> o_result o = false -> DLLInit s o = None.
Proof. exact DLLInit_none. Qed.
Print Assumptions C51_failed_init_refuted.

(** C51, the whole life: for any number of libraries, answers of the system and outcomes. *)
Definition phase_says (paths sd : nat) (p : phase) (s : st) : Prop :=
  match p with
  | Asking =>                             (* nothing is patched, nothing was called *)
      (forall h, In h (opened s) -> vt s h = Game h) /\ NoDup (opened s) /\ trace s = [] /\ core s = false
  | Have =>                               (* one library is left, its init entry is patched *)
      exists h, h < paths /\ iface s = Some h /\ opened s = [h] /\
        (forall j, vt s h j = if j =? 0 then TInit else Game h j) /\ trace s = [] /\ core s = false
  | Running c =>
      exists h, h < paths /\ iface s = Some h /\ opened s = [h] /\ vt s h 0 = Game h 0 /\
        (vt s h sd = TShutdown <-> c = true) /\ trace s = [CallInit (Game h 0)] /\ core s = c
  | Failed =>
      exists h, h < paths /\ iface s = Some h /\ opened s = [h] /\ vt s h 0 = Game h 0 /\
        vt s h sd <> TShutdown /\ trace s = [CallInit (Game h 0); CoreUnload] /\ core s = false
  | Down c =>
      exists h a, h < paths /\ opened s = (if c then [] else [h]) /\ (a = Game h sd \/ exists n, a = Other n) /\
        trace s = CallInit (Game h 0) :: (if c then [CoreUnload] else []) ++ [CallShutdown a] /\ core s = false
  end.

Theorem C51_history : forall paths sd p s, sd <> 0 -> reach paths sd p s -> phase_says paths sd p s.
Proof.
  intros paths sd p s H0 R. pose proof (reach_good paths sd p s H0 R) as G.
  destruct p as [| |c| |c]; cbn [good phase_says] in *.
  - destruct G as (C & _ & _ & _ & _ & _ & _ & G1 & G2). destruct C as [_ C2 _ C4]. auto.
  - destruct G as (h & Hh & V). destruct V. exists h. auto 10.
  - destruct G as (h & Hh & V). destruct V as [V1 V2 V3 V4 V5 V6 V7 V8 V9 V10]. exists h.
    do 4 (split; [assumption|]). split; [|auto]. destruct c; [split; auto|].
    split; [|discriminate]. intros E. destruct V5 as [V5|(n & V5)]; congruence.
  - destruct G as (h & Hh & V). destruct V as [V1 V2 V3 V4 V5 V6 V7 V8]. exists h.
    do 4 (split; [assumption|]). split; [|auto]. intros E. destruct V5 as [V5|(n & V5)]; congruence.
  - destruct G as (h & Hh & V). destruct V as [V1 V2 V3 V4 (a & Ha & V5)]. exists h, a. auto 10.
Qed.
Print Assumptions C51_history.

(** and every step of such an engine is well defined, except an init that fails without core *)
Theorem C51_safe : forall paths sd p s, sd <> 0 -> reach paths sd p s ->
  match p with
  | Asking => forall al, length al = paths -> exists s' r, GameDllRequest s al = Some (s', r)
  | Have => forall o, o_index o = sd -> core_up o = true \/ o_result o = true ->
      exists s', step sd s (CallInitSlot o) = Some s'
  | Running _ => exists s', step sd s CallShutdownSlot = Some s'
  | _ => True
  end.
Proof.
  intros paths sd p s H0 R. pose proof (reach_good paths sd p s H0 R) as G.
  destruct p as [| |c| |c]; cbn [good] in *; auto.
  - intros al Hl. destruct (request_spec paths s al G Hl) as (s' & r & E & _). eauto.
  - destruct G as (h & Hh & V). intros o _ Hor.
    destruct (DLLInit_spec s o h (Game h 0) (hv_iface h s V) (hv_b h s V) (hv_c h s V) (hv_oi h s V)) as (s' & E & _);
      [discriminate|exact Hor|].
    exists s'. cbn [step]. rewrite (hv_iface h s V), (hv_vt h s V 0). cbn [Nat.eqb]. rewrite E. reflexivity.
  - destruct G as (h & Hh & V). destruct (running_down sd c h s V) as (s' & E & _). eauto.
Qed.
Print Assumptions C51_safe.

(** ** A run through all phases: the second of three libraries has the interface in the
    second request; a plugin replaces the shutdown entry *)
Definition idt (t : table) : table := t.
Definition ok_out := out true true true true true 5 idt (fun t => set_slot t 5 (Other 7)) idt.
Definition no := ans true true false.
Definition yes := ans true true true.
Definition nofile := ans false false false.

Definition got (x : option (st * bool)) : st := match x with Some (s, _) => s | None => start 0 end.
Definition ran (x : option st) : st := match x with Some s => s | None => start 0 end.
Lemma ran_some x : match x with Some _ => true | None => false end = true -> x = Some (ran x).
Proof. destruct x; [reflexivity|discriminate]. Qed.
Lemma got_some x r : match x with Some (_, r') => Bool.eqb r r' | None => false end = true -> x = Some (got x, r).
Proof. destruct x as [[s r']|]; [|discriminate]. intros E. apply eqb_prop in E. subst. reflexivity. Qed.
Definition ex1 := got (GameDllRequest (start 3) [no; nofile; no]).
Definition ex2 := got (GameDllRequest ex1 [no; yes; no]).
Definition ex3 := ran (step 5 ex2 (CallInitSlot ok_out)).
Definition ex4 := ran (step 5 ex3 CallShutdownSlot).

Example C51_ex : reach 3 5 (Down true) ex4 /\ opened ex2 = [1] /\ opened ex4 = [] /\
  trace ex4 = [CallInit (Game 1 0); CoreUnload; CallShutdown (Other 7)].
Proof.
  split; [|repeat split; vm_compute; reflexivity].
  apply (r_down 3 5 ex3 true); [|apply ran_some; vm_compute; reflexivity].
  apply (r_init 3 5 ex2 ok_out ex3);
    [| |intros t; left; reflexivity|intros t; right; exists 7; reflexivity|intros t; left; reflexivity
     |apply ran_some; vm_compute; reflexivity].
  - apply (r_yes 3 5 ex1 [no; yes; no] ex2); [|reflexivity|apply got_some; vm_compute; reflexivity].
    apply (r_no 3 5 (start 3) [no; nofile; no] ex1); [constructor|reflexivity|apply got_some; vm_compute; reflexivity].
  - reflexivity.
Qed.

(** ** What else goes wrong *)
Lemma loops sd s o h : iface s = Some h -> vt s h 0 = TInit -> orig_init s = TInit -> bridge s = false ->
  step sd s (CallInitSlot o) = None.
Proof.
  intros H1 H2 H3 H4. cbn [step]. rewrite H1, H2. unfold DLLInit.
  destruct (o_known o), (o_load o), (o_getbridge o); cbn; rewrite ?H1, ?H4; cbn; try destruct (o_pre o); cbn; rewrite H3; reflexivity.
Qed.

(** An engine (or another loader) that asks twice: the second patch saves the loader's own
    function as the original, and DLLInit calls itself without end. *)
Theorem C51_second_request_refuted : forall o, exists s,
  run 5 (start 1) [Request [yes]; Request [yes]] = Some s /\ step 5 s (CallInitSlot o) = None.
Proof.
  intros o. exists (ran (run 5 (start 1) [Request [yes]; Request [yes]])). split; [apply ran_some; vm_compute; reflexivity|].
  apply (loops 5 _ o 0); vm_compute; reflexivity.
Qed.
Print Assumptions C51_second_request_refuted.

(** The cached libraries are freed when the interface is found, their handles are kept:
    the next request uses a library that is gone. *)
Theorem C51_stale_library_refuted : exists s,
  run 5 (start 2) [Request [no; yes]] = Some s /\ forall a b, GameDllRequest s [a; b] = None.
Proof. exists (ran (run 5 (start 2) [Request [no; yes]])). split; [apply ran_some; vm_compute; reflexivity|]. intros a b. vm_compute. reflexivity. Qed.
Print Assumptions C51_stale_library_refuted.

(** A function which the core, a plugin or the game puts into the init entry while DLLInit
    runs is overwritten by the undoing of the patch. *)
Theorem C51_hook_lost : forall s h n, iface s = Some h -> bridge s = false -> core s = false -> orig_init s = Game h 0 ->
  let o := out true true true true true 5 (fun t => set_slot t 0 (Other n)) idt idt in
  others o (vt s h) 0 = Other n /\ exists s', DLLInit s o = Some (s', true) /\ vt s' h 0 = Game h 0.
Proof.
  intros s h n H1 H2 H3 H4 o. split; [reflexivity|].
  destruct (C51_init s o h (Game h 0) H1 H2 H3 H4) as (s' & E & T & _); [discriminate|left; reflexivity|].
  exists s'. split; [exact E|]. rewrite T. reflexivity.
Qed.
Print Assumptions C51_hook_lost.
