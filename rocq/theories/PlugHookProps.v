(** C46: the hooks of a plugin live and pause with the plugin. *)
From Coq Require Import List ZArith Bool Arith Ascii String Lia.
From Verif Require Import Base ListModel StrModel StrSpec StrProofs PlugModel PlugSpec PlugProofs PlugRun PlugSafe PlugSafe2 PlugSafe3 PlugProps PlugSafeProps PlugHooks.
Import ListNotations.
Local Open Scope list_scope.
Local Open Scope nat_scope.
Notation length := List.length.

Lemma hooks_run (W : Prop) : forall ops s s' rs, Good s -> SafeX None s -> HX W None s -> guarded s ops -> never_retried s ops -> (W -> silent s ops) -> run s ops = Some (s', rs) -> HX W None s'.
Proof.
  induction ops as [|o ops IH]; intros s s' rs GS SF H G N L E; cbn [run] in E; [injection E as <- _; exact H|]. destruct G as [AL G]. cbn [never_retried] in N.
  destruct (step s o) as [[s1 r]|] eqn:S; [|discriminate]. cbn [fst snd] in E. destruct (run s1 ops) as [[s2 rs']|] eqn:R; [|discriminate]. injection E as <- _.
  destruct (N s1 r eq_refl) as [N1 N2]. destruct (step_ok s o GS SF AL) as (s1' & r' & S' & SF1). rewrite S in S'. injection S' as <- <-.
  apply (IH s1 s2 rs'); auto.
  - exact (proj1 (step_Good _ _ _ _ GS S)).
  - apply (HX_step W s o s1 r GS SF AL); auto. intros w. exact (proj1 (L w)).
  - exact (G s1 r eq_refl).
  - intros w. destruct (L w) as [_ L2]. exact (L2 s1 r S).
Qed.
Lemma init_HX W : HX W None init.
Proof. split; [intros a p []|intros k []]. Qed.

(** Every hook belongs to a plugin that is listed and loaded, under its id. *)
Theorem C46_owned : forall ops s rs, guarded init ops -> never_retried init ops -> run init ops = Some (s, rs) ->
  forall k, In k (hooks s) -> exists p, In (h_owner k) (plugins s) /\ getp s (h_owner k) = Some p /\ is_loaded p /\ h_plug k = p_id p.
Proof.
  intros ops s rs G N R k Ik. pose proof (hooks_run False ops init s rs init_Good init_Safe (init_HX False) G N (fun f => match f with end) R) as [_ O].
  destruct (O k Ik) as (p & Io & Gp & P & [C|[L _]]); [discriminate|]. exists p. auto.
Qed.
Print Assumptions C46_owned.

(** So none of the hooks of a plugin is left once it is unloaded. *)
Theorem C46_unloaded : forall ops id force c s rs s' r a p, let ops' := ops ++ [OUnload id force c] in
  guarded init ops' -> never_retried init ops' -> run init ops = Some (s, rs) -> In a (plugins s) -> getp s a = Some p -> p_id p = id ->
  step s (OUnload id force c) = Some (s', r) -> r = RBool true -> forall k, In k (hooks s') -> h_owner k <> a.
Proof.
  intros ops id force c s rs s' r a p ops' G N R Ia Gp Eid S Er k Ik C.
  assert (R' : run init ops' = Some (s', rs ++ [r])).
  { assert (X : forall l s0 s1 rs1, run s0 l = Some (s1, rs1) -> step s1 (OUnload id force c) = Some (s', r) -> run s0 (l ++ [OUnload id force c]) = Some (s', rs1 ++ [r])).
    { induction l as [|o l IH]; intros s0 s1 rs1 E1 E2; cbn [run app] in *.
      - injection E1 as <- <-. rewrite E2. reflexivity.
      - destruct (step s0 o) as [[s2 r2]|]; [|discriminate]. cbn [fst snd] in *. destruct (run s2 l) as [[s3 rs3]|] eqn:E3; [|discriminate]. injection E1 as <- <-. rewrite (IH _ _ _ E3 E2). reflexivity. }
    exact (X ops init s rs R S). }
  destruct (C46_owned ops' s' (rs ++ [r]) G N R' k Ik) as (q & Io & _). rewrite C in Io. cbn [step] in S. destruct (Unload s id force c) as [[s1 b]|] eqn:U; [|discriminate]. injection S as <- <-. cbn [fst snd] in *. injection Er as ->.
  destruct (C42_unload s id force c s1 true) as (_ & M & _); [exists ops, rs; exact R|exact U|]. apply M in Io. destruct Io as [_ Q]. exact (Q eq_refl p Gp Eid).
Qed.
Print Assumptions C46_unloaded.

(** A hook is paused exactly while its plugin is paused, if paused plugins add no hooks. *)
Theorem C46_paused : forall ops s rs, guarded init ops -> never_retried init ops -> silent init ops -> run init ops = Some (s, rs) ->
  forall k p, In k (hooks s) -> getp s (h_owner k) = Some p -> (h_paused k = true <-> p_status p = Some Paused).
Proof.
  intros ops s rs G N L R k p Ik Gk. pose proof (hooks_run True ops init s rs init_Good init_Safe (init_HX True) G N (fun _ => L) R) as [_ O].
  destruct (O k Ik) as (q & Io & Gq & P & [C|[_ Q]]); [discriminate|]. assert (q = p) by congruence. subst q. exact (Q Logic.I).
Qed.
Print Assumptions C46_paused.

(** Non-vacuity: two plugins with hooks, one paused, one refused and unloaded *)
Definition hook_ops : list op :=
  [OLoad (f_ "a.so") 0 (lib_ 10 [AHook 1; AHook 2] true); OLoad (f_ "b.so") 0 (lib_ 11 [AHook 3] false); OLoad (f_ "c.so") 0 (lib_ 12 [AHook 4] true);
   OPause 1 ([AHook 5], true); ORetry 2 (lib_ 13 [AHook 6] false) ([], true)].
Example C46_example : exists s rs, guarded init hook_ops /\ never_retried init hook_ops /\ silent init hook_ops /\ run init hook_ops = Some (s, rs) /\
  map (fun k => (h_owner k, h_name k, h_paused k)) (hooks s) = [(0, 1, true); (0, 2, true); (2, 4, false); (0, 5, true)].
Proof.
  eexists _, _. split; [|split; [|split; [|split; [vm_compute; reflexivity|reflexivity]]]].
  - apply C42_plain. cbn. unfold no_unreg. repeat split; intros; cbn in *; intuition (try discriminate; try lia).
  - cbn [never_retried hook_ops]. intros s1 r1 E1. split; [exact Logic.I|]. vm_compute in E1. injection E1 as <- <-. intros s2 r2 E2. split; [exact Logic.I|]. vm_compute in E2. injection E2 as <- <-. intros s3 r3 E3. split; [exact Logic.I|]. vm_compute in E3. injection E3 as <- <-.
    intros s4 r4 E4. split; [exact Logic.I|]. vm_compute in E4. injection E4 as <- <-. intros s5 r5 E5. split; [|exact Logic.I]. vm_compute in E5. injection E5 as <- <-. discriminate.
  - cbn [silent silent_op hook_ops]. split; [exact Logic.I|]. intros s1 r1 _. split; [exact Logic.I|]. intros s2 r2 _. split; [exact Logic.I|]. intros s3 r3 _. split; [exact Logic.I|]. intros s4 r4 _. split; [exact Logic.I|]. intros s5 r5 _. exact Logic.I.
Qed.

(** ** After a Retry that succeeds *)
(** The plugin was told the id it had before Retry gave it the old one.  Its hooks
    stay when it is unloaded, although its library is closed. *)
Theorem C46_retry_refuted : exists ops s rs k,
  guarded init ops /\ run init ops = Some (s, rs) /\ plugins s = [] /\ pend s = [] /\ libs s = [] /\ In k (hooks s) /\ h_paused k = false.
Proof.
  exists [OLoad (f_ "a.so") 0 (lib_ 10 [] false); ORetry 1 (lib_ 11 [AHook 7] true) ([], true); OUnload 1 true ([], true)]. eexists _, _, _.
  split; [|split; [vm_compute; reflexivity|split; [reflexivity|split; [reflexivity|split; [reflexivity|split; [left; reflexivity|reflexivity]]]]]].
  apply C42_plain. cbn. unfold no_unreg. repeat split; intros; cbn in *; intuition (try discriminate; try lia).
Qed.
Print Assumptions C46_retry_refuted.
(** The next plugin gets the id the first one was told.  Unloading it removes the
    hooks of the first one, which is running. *)
Theorem C46_retry_shared_refuted : exists s rs s' r p,
  guarded init retry_ops /\ run init retry_ops = Some (s, rs) /\ (exists k, In k (hooks s) /\ h_owner k = 1) /\
  step s (OUnload 2 false ([], true)) = Some (s', r) /\ getp s' 1 = Some p /\ p_status p = Some Running /\ p_id p = 1%Z /\ hooks s' = [].
Proof.
  eexists _, _, _, _, _. split; [|split; [vm_compute; reflexivity|split; [eexists; split; [left; reflexivity|reflexivity]|split; [vm_compute; reflexivity|split; [reflexivity|split; [reflexivity|split; reflexivity]]]]]].
  apply C42_plain. cbn. unfold no_unreg. repeat split; intros; cbn in *; intuition (try discriminate; try lia).
Qed.
Print Assumptions C46_retry_shared_refuted.
(** A plugin that is paused can add a hook, and the hook runs. *)
Theorem C46_paused_adds_refuted : exists ops s rs k p,
  guarded init ops /\ never_retried init ops /\ run init ops = Some (s, rs) /\ In k (hooks s) /\ getp s (h_owner k) = Some p /\ p_status p = Some Paused /\ h_paused k = false.
Proof.
  exists [OLoad (f_ "a.so") 0 (lib_ 10 [] true); OPause 1 ([], true); OAct 0 [AHook 3]]. eexists _, _, _, _.
  split; [|split; [|split; [vm_compute; reflexivity|split; [left; reflexivity|split; [reflexivity|split; reflexivity]]]]].
  - apply C42_plain. cbn. unfold no_unreg. repeat split; intros; cbn in *; intuition (try discriminate; try lia).
  - cbn [never_retried]. intros s1 r1 _. split; [exact Logic.I|]. intros s2 r2 _. split; [exact Logic.I|]. intros s3 r3 _. split; exact Logic.I.
Qed.
Print Assumptions C46_paused_adds_refuted.
