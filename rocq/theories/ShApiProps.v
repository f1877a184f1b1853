(** Properties of the hook API: C01, C02, C03, C08, C09, C17, C18, C20, C23, C24.

    [reachable mem s]: some history of events (calls of hooked functions,
    handlers returning, API calls from anywhere, including from inside
    handlers) leads from the initial state to [s]; [mem] gives the vtable
    contents before SourceHook touched them. *)
From Coq Require Import List Bool Arith ZArith Lia.
From Verif Require Import ProtoModel ProtoSpec ProtoProofs ShModel ShRun ShInv ShGood ShSpec ShView ShChange ShMgr ShOrder ShOwned ShClient.
Import ListNotations.
Local Open Scope nat_scope.

(** ** A concrete system for the examples: object 1000 (vtable at 5000), two
    hook manager functions 100 (version 5) and 101 (version 6) for slot 2. *)
Definition ex_proto := Proto 0 0 (PassInfo 0 0 0 0 0 0 0) [] 0.
Definition ex_pfs (p : Z) : option pfinfo :=
  if Z.eqb p 100 then Some (PfInfo 5 0 2 ex_proto) else if Z.eqb p 101 then Some (PfInfo 6 0 2 ex_proto) else None.
Definition ex_mem (a : Z) : Z := (2 * a)%Z.
Definition ex_init : state := init ex_pfs ex_mem (fun _ => 5000%Z).
Definition ex_slot : Z := 5016%Z.
Definition ex_run (l : list event) : state := match run ex_init l with Ok s => s | _ => ex_init end.
Definition ex_ok (l : list event) : bool := match run ex_init l with Ok _ => true | _ => false end.
Lemma ex_reach : forall l, ex_ok l = true -> reachable ex_mem (ex_run l).
Proof.
  intros l H. exists ex_pfs, (fun _ => 5000%Z), l. split.
  - intros f i. unfold ex_pfs. destruct (Z.eqb f 100); [intros E; injection E as <-; reflexivity|].
    destruct (Z.eqb f 101); [intros E; injection E as <-; reflexivity|discriminate].
  - unfold ex_ok, ex_run in *. fold ex_init. destruct (run ex_init l); [reflexivity|discriminate|discriminate].
Qed.
(** Three hooks of two plugins, a running hook loop with a handler active. *)
Definition ex_hist : list event :=
  [EAddHook 1 ANormal 1000 0 100 42 false; EAddHook 2 ANormal 1000 0 101 43 false; EAddHook 1 AVP 1000 0 100 44 true;
   ECall 1000 0 2 7].
Definition ex_ids (s : state) : list Z := map hk_id (installed (s_h s) ex_slot 1000 false ++ installed (s_h s) ex_slot 0 true).
Example ex_hist_ok : reachable ex_mem (ex_run ex_hist) /\ ex_ids (ex_run ex_hist) = [1; 2; 3]%Z /\ length (s_fr (ex_run ex_hist)) = 1.
Proof. split; [apply ex_reach; vm_compute; reflexivity|]. split; vm_compute; reflexivity. Qed.

(** ** C01 Hook ids are unique among live hooks *)
Theorem C01_unique : forall mem s, reachable mem s -> forall sl a p k sl' a' p' k',
  In k (installed (s_h s) sl a p) -> In k' (installed (s_h s) sl' a' p') ->
  hk_id k = hk_id k' -> sl = sl' /\ a = a' /\ p = p' /\ k = k'.
Proof. exact cl_unique. Qed.
Print Assumptions C01_unique.

Theorem C01_positive : forall mem s, reachable mem s -> forall sl a p k, In k (installed (s_h s) sl a p) -> (1 <= hk_id k)%Z.
Proof. exact cl_pos. Qed.
Print Assumptions C01_positive.

(** AddHook: refused (id 0, nothing changes), or a fresh id and the new hook is
    the last of its list while all other lists stay as they are.  [None]
    (undefined behaviour) only when the vtable pointer is read through NULL. *)
Theorem C01_add : forall mem s, reachable mem s -> forall plug mode ifp offs pf handler post,
  match add_hook (s_h s) plug mode ifp offs pf handler post with
  | None => mode <> ADVP /\ (ifp + offs)%Z = 0%Z
  | Some (h', id) =>
      (id = 0%Z /\ h' = s_h s /\ (h_pfs (s_h s) pf = None \/ exists i, h_pfs (s_h s) pf = Some i /\ pf_ver i = (-1)%Z)) \/
      ((1 <= id)%Z /\ exists i hk, h_pfs (s_h s) pf = Some i /\ pf_ver i <> (-1)%Z /\ recorded h' id i /\
        hk_id hk = id /\ hk_plug hk = plug /\ hk_offs hk = offs /\ hk_handler hk = handler /\ hk_paused hk = false /\
        (forall sl a p k, In k (installed (s_h s) sl a p) -> hk_id k <> id /\ hk_nid k <> hk_nid hk) /\
        (forall sl a p, installed h' sl a p =
           installed (s_h s) sl a p ++
           (if Z.eqb sl (add_slot (s_h s) mode ifp offs i) && Z.eqb a (add_ptr mode ifp offs) && Bool.eqb p post then [hk] else [])))
  end.
Proof. exact cl_add. Qed.
Print Assumptions C01_add.

(** Whatever happens, a hook stays where it is, with the same id, plugin,
    handler, offset and recorded function, until its handler is destroyed. *)
Theorem C01_id_stable : forall mem s l s' sl a p k, reachable mem s -> run s l = Ok s' -> In k (installed (s_h s) sl a p) ->
  exists new, since s s' new /\
    ((exists k', In k' (installed (s_h s') sl a p) /\ same_hook k k' /\ (forall i, recorded (s_h s) (hk_id k) i -> recorded (s_h s') (hk_id k) i)) \/
     In (hk_nid k) (deleted new)).
Proof.
  intros mem s l s' sl a p k R E H. destruct (run_persists mem l s s' sl a p k (reachable_good _ _ R) E H) as (new & N & [(k' & H' & S & Q)|D]); exists new; split; auto.
  left. exists k'. split; [exact H'|]. split; [exact S|]. unfold recorded. intros i (e & Qe & Ee). exists e. rewrite Q. auto.
Qed.
Print Assumptions C01_id_stable.

(** Ids are reused after removal, never while the hook is live. *)
Example C01_ex : ex_ids (ex_run (ex_hist ++ [ERemoveById 2; EAddHook 2 ANormal 1000 0 100 77 false])) = [1; 2; 3]%Z
              /\ map hk_handler (installed (s_h (ex_run (ex_hist ++ [ERemoveById 2; EAddHook 2 ANormal 1000 0 100 77 false]))) ex_slot 1000 false) = [42; 77]%Z
              /\ match add_hook (s_h (ex_run ex_hist)) 1 ANormal 1000 0 102 1 false with Some (_, id) => id = 0%Z | None => False end.
Proof. repeat apply conj; vm_compute; reflexivity. Qed.

(** ** C02 RemoveHookByID removes exactly one hook *)
Theorem C02_remove_by_id : forall mem s, reachable mem s -> forall id,
  exists k' b, remove_by_id (s_k s) id = Some (k', b) /\ step s (ERemoveById id) = Ok (with_k s k') /\
    (b = true <-> exists sl a p k, In k (installed (s_h s) sl a p) /\ hk_id k = id) /\
    (b = false -> k' = s_k s) /\
    (forall sl a p, installed (c_h k') sl a p = without (fun k => Z.eqb (hk_id k) id) (installed (s_h s) sl a p)) /\
    (forall sl a p k, In k (installed (s_h s) sl a p) -> hk_id k = id ->
       exists new, since s (with_k s k') new /\ deleted new = [hk_nid k]).
Proof. exact cl_remove_by_id. Qed.
Print Assumptions C02_remove_by_id.

Example C02_ex : ex_ids (ex_run (ex_hist ++ [ERemoveById 1; ERemoveById 9])) = [2; 3]%Z.
Proof. vm_compute. reflexivity. Qed.

(** ** C03 RemoveHook removes exactly the matching hooks *)
Theorem C03_remove_hook : forall mem s, reachable mem s -> forall plug ifp offs pf handler post,
  exists k' b D, remove_hook (s_k s) plug ifp offs pf handler post = Some (k', b) /\
    step s (ERemoveHook plug ifp offs pf handler post) = Ok (with_k s k') /\
    (forall sl a p, installed (c_h k') sl a p = without D (installed (s_h s) sl a p)) /\
    (forall sl a p k, In k (installed (s_h s) sl a p) ->
       (D k = true <-> rm_target (s_h s) plug ifp offs pf handler post a p k)) /\
    (b = true <-> exists sl a p k, In k (installed (s_h s) sl a p) /\ rm_target (s_h s) plug ifp offs pf handler post a p k) /\
    (exists new, since s (with_k s k') new /\ NoDup (deleted new) /\
       forall n, In n (deleted new) <-> exists sl a p k, In k (installed (s_h s) sl a p) /\ rm_target (s_h s) plug ifp offs pf handler post a p k /\ hk_nid k = n).
Proof. exact cl_remove_hook. Qed.
Print Assumptions C03_remove_hook.

(** Hooks for the whole vtable are not removed, unless RemoveHook is called
    with arguments that add up to a null object. *)
Theorem C03_vp_kept : forall mem s, reachable mem s -> forall plug ifp offs pf handler post, (ifp + offs)%Z <> 0%Z ->
  exists s', step s (ERemoveHook plug ifp offs pf handler post) = Ok s' /\
    forall sl p, installed (s_h s') sl 0 p = installed (s_h s) sl 0 p.
Proof.
  intros mem s R plug ifp offs pf handler post N. destruct (cl_remove_hook mem s R plug ifp offs pf handler post) as (k' & b & D & _ & E & I & HD & _).
  eexists. split; [exact E|]. intros sl p. refine (eq_trans (I sl 0%Z p) _). apply filter_all. intros k Hk. apply negb_true_iff.
  destruct (D k) eqn:X; [|reflexivity]. exfalso. apply (HD _ _ _ _ Hk) in X. destruct X as (i & i0 & _ & _ & _ & _ & _ & C & _). congruence.
Qed.
Print Assumptions C03_vp_kept.

(** "Vtable-wide hooks are never removed by RemoveHook" is false for a null
    object: RemoveHook(plugin, NULL, ...) removes them. *)
Theorem C03_vp_never_removed_refuted : exists mem s plug pf handler s',
  reachable mem s /\ step s (ERemoveHook plug 0 0 pf handler true) = Ok s' /\
  installed (s_h s) ex_slot 0 true <> [] /\ installed (s_h s') ex_slot 0 true = [].
Proof.
  exists ex_mem, (ex_run ex_hist), 1%Z, 100%Z, 44%Z, (ex_run (ex_hist ++ [ERemoveHook 1 0 0 100 44 true])).
  split; [apply ex_reach; vm_compute; reflexivity|]. split; [vm_compute; reflexivity|]. split; [vm_compute; discriminate|vm_compute; reflexivity].
Qed.
Print Assumptions C03_vp_never_removed_refuted.

Example C03_ex : ex_ids (ex_run (ex_hist ++ [EAddHook 1 ANormal 1000 0 100 42 false])) = [1; 2; 4; 3]%Z
              /\ ex_ids (ex_run (ex_hist ++ [EAddHook 1 ANormal 1000 0 100 42 false; ERemoveHook 1 1000 0 100 42 false])) = [2; 3]%Z
              /\ ex_ids (ex_run (ex_hist ++ [ERemoveHook 1 1000 0 100 43 false; ERemoveHook 1 1000 0 100 44 true])) = [1; 2; 3]%Z.
Proof. repeat apply conj; vm_compute; reflexivity. Qed.

(** ** C08 vtable entries are patched and restored exactly *)
Theorem C08_slot : forall mem s, reachable mem s -> forall sl,
  (hooked (s_h s) sl -> exists o f, hd_error (managers (s_h s) sl) = Some o /\ hook_function (s_h s) o = Some f /\
      h_mem (s_h s) sl = CHook f /\ orig_entry (s_h s) sl = Some (COrig (mem sl))) /\
  (~ hooked (s_h s) sl -> h_mem (s_h s) sl = COrig (mem sl) /\ orig_entry (s_h s) sl = None).
Proof. exact cl_slot. Qed.
Print Assumptions C08_slot.

(** A step only writes slots that are hooked before or after it. *)
Theorem C08_written : forall mem s e s' new sl c, reachable mem s -> step s e = Ok s' -> since s s' new -> In (OPatch sl c) new ->
  hooked (s_h s) sl \/ hooked (s_h s') sl.
Proof. intros mem s e s' new sl c R. apply (step_patches mem). apply reachable_good. exact R. Qed.
Print Assumptions C08_written.

Example C08_ex : h_mem (s_h (ex_run ex_hist)) ex_slot = CHook 101
              /\ h_mem (s_h (ex_run (ex_hist ++ [ERemoveById 1; ERemoveById 2; ERemoveById 3]))) ex_slot = COrig 10032
              /\ h_mem (s_h (ex_run ex_hist)) 5008 = COrig 10016.
Proof. repeat apply conj; vm_compute; reflexivity. Qed.

(** ** C09 Handler objects are destroyed exactly once and never called afterwards *)
Theorem C09_destroyed_once : forall mem s, reachable mem s ->
  NoDup (deleted (h_tr (s_h s))) /\
  (forall sl a p k, In k (installed (s_h s) sl a p) -> ~ In (hk_nid k) (deleted (h_tr (s_h s)))) /\
  (forall sl a p k sl' a' p' k', In k (installed (s_h s) sl a p) -> In k' (installed (s_h s) sl' a' p') -> hk_nid k = hk_nid k' -> k = k').
Proof. exact cl_delegs. Qed.
Print Assumptions C09_destroyed_once.

(** A hook that is no longer installed has been destroyed. *)
Theorem C09_destroyed_when_removed : forall mem s l s' sl a p k, reachable mem s -> run s l = Ok s' -> In k (installed (s_h s) sl a p) ->
  (forall k', In k' (installed (s_h s') sl a p) -> hk_nid k' <> hk_nid k) -> exists new, since s s' new /\ In (hk_nid k) (deleted new).
Proof.
  intros mem s l s' sl a p k R E H N. destruct (run_persists mem l s s' sl a p k (reachable_good _ _ R) E H) as (new & Ns & [(k' & H' & (S & _) & _)|D]); exists new; split; auto.
  destruct (N k' H' S).
Qed.
Print Assumptions C09_destroyed_when_removed.

Theorem C09_never_called_destroyed : forall mem s, reachable mem s -> never_called_destroyed (h_tr (s_h s)).
Proof. exact cl_quiet. Qed.
Print Assumptions C09_never_called_destroyed.

(** the running handler removes its own and the following hook *)
Example C09_ex : deleted (h_tr (s_h (ex_run (ex_hist ++ [ERemoveById 1; ERemoveById 2; EReturn 0; EReturn 0])))) <> []
              /\ ex_ok (ex_hist ++ [ERemoveById 1; ERemoveById 2; EReturn 0; EReturn 0]) = true.
Proof. split; vm_compute; [discriminate|reflexivity]. Qed.

(** ** C17 Pausing *)
Theorem C17_pause_by_id : forall mem s, reachable mem s -> forall id p,
  exists h' b, set_paused (s_h s) id p = (h', b) /\ step s (EPause id p) = Ok (with_k s (Core h' (c_cs (s_k s)) (c_tasks (s_k s)))) /\
    (b = true <-> exists sl a q k, In k (installed (s_h s) sl a q) /\ hk_id k = id) /\
    (b = false -> h' = s_h s) /\
    (forall sl a q, installed h' sl a q = map (pause_when (fun k => Z.eqb (hk_id k) id) p) (installed (s_h s) sl a q)).
Proof. exact cl_pause. Qed.
Print Assumptions C17_pause_by_id.

Theorem C17_pause_plugin : forall mem s, reachable mem s -> forall plug p,
  exists s', step s (EPausePlugin plug p) = Ok s' /\
    (forall sl a q, installed (s_h s') sl a q = map (pause_when (fun k => Z.eqb (hk_plug k) plug) p) (installed (s_h s) sl a q)).
Proof. exact cl_pause_plugin. Qed.
Print Assumptions C17_pause_plugin.

(** Every handler call is the call of an installed hook that is not paused. *)
Theorem C17_only_unpaused_run : forall mem s e s', reachable mem s -> step s e = Ok s' ->
  exists new, since s s' new /\
    forall f n hd ip pr, In (OHandler f n hd ip pr) new ->
      exists sl a p k, In k (installed (s_h s) sl a p) /\ hk_nid k = n /\ hk_handler k = hd /\ hk_paused k = false.
Proof. exact cl_ran. Qed.
Print Assumptions C17_only_unpaused_run.

Example C17_ex : map hk_paused (installed (s_h (ex_run (ex_hist ++ [EPause 2 true]))) ex_slot 1000 false) = [false; true]
              /\ map hk_paused (installed (s_h (ex_run (ex_hist ++ [EPausePlugin 2 true; EPausePlugin 2 false]))) ex_slot 1000 false) = [false; false].
Proof. split; vm_compute; reflexivity. Qed.

(** ** C18 UnloadPlugin removes everything the plugin owns *)
Theorem C18_unload : forall mem s, reachable mem s -> forall plug listener,
  exists s', step s (EUnload plug listener) = Ok s' /\
    (forall sl a p k, In k (installed (s_h s') sl a p) -> hk_plug k <> plug) /\
    (forall o, manager_of (s_h s') o <> Some plug) /\
    (forall o, manager_of (s_h s) o <> Some plug -> manager_of (s_h s') o = manager_of (s_h s) o) /\
    (exists D, forall sl a p, installed (s_h s') sl a p = without D (installed (s_h s) sl a p)) /\
    (no_orphans (s_h s) -> no_orphans (s_h s') /\
       forall sl a p, installed (s_h s') sl a p = without (fun k => Z.eqb (hk_plug k) plug) (installed (s_h s) sl a p)) /\
    (forall sl, hooked (s_h s') sl -> exists o f q, h_mem (s_h s') sl = CHook f /\
       In o (managers (s_h s') sl) /\ hook_function (s_h s') o = Some f /\ manager_of (s_h s') o = Some q /\ q <> plug).
Proof. exact cl_unload. Qed.
Print Assumptions C18_unload.

(** The hypothesis [no_orphans] of the clause about other plugins' hooks holds
    as long as RemoveHookManager is used only by plugins without hooks there. *)
Theorem C18_no_orphans : forall pfs mem vt l s, (forall f i, pfs f = Some i -> proto_wf (pf_proto i)) ->
  run (init pfs mem vt) l = Ok s -> tidy (init pfs mem vt) l -> no_orphans (s_h s).
Proof.
  intros pfs mem vt l s P E T. pose proof (Good_init pfs mem vt P) as G. apply owned_orphans.
  - exact (wf_h _ _ (g_wf _ _ (run_good mem l _ _ G E))).
  - apply (run_owned mem l _ _ G E); [|exact T]. intros sl a p x (v & i & [] & _).
Qed.
Print Assumptions C18_no_orphans.

(** Without that discipline UnloadPlugin destroys hooks of other plugins:
    plugin 2 calls RemoveHookManager while its hook is live (the hook stays,
    see C24), then plugin 1 is unloaded. *)
Theorem C18_other_hooks_refuted : exists mem s s',
  reachable mem s /\ step s (EUnload 1 0) = Ok s' /\
  map hk_plug (installed (s_h s) ex_slot 1000 false) = [1; 2]%Z /\ installed (s_h s') ex_slot 1000 false = [].
Proof.
  set (l := [EAddHook 1 ANormal 1000 0 100 42 false; EAddHook 2 ANormal 1000 0 101 43 false; ERemoveMan 2 101]).
  exists ex_mem, (ex_run l), (ex_run (l ++ [EUnload 1 0])).
  split; [apply ex_reach; vm_compute; reflexivity|]. split; [vm_compute; reflexivity|]. split; vm_compute; reflexivity.
Qed.
Print Assumptions C18_other_hooks_refuted.

Example C18_ex : tidy ex_init ex_hist /\ ex_ids (ex_run (ex_hist ++ [EUnload 1 7])) = [2]%Z /\ ex_ids (ex_run (ex_hist ++ [EUnload 2 7])) = [1; 3]%Z
              /\ h_mem (s_h (ex_run (ex_hist ++ [EUnload 2 7]))) ex_slot = CHook 100.
Proof. split; [vm_compute; tauto|]. repeat apply conj; vm_compute; reflexivity. Qed.

(** ** C20 Hook manager selection *)
(** [R sl]: the managers of the slot in the order of their registration there. *)
Theorem C20_active_manager : forall mem s R sl, reached_reg mem s R -> hooked (s_h s) sl ->
  exists R1 o R2 v f, R sl = R1 ++ o :: R2 /\ version (s_h s) o = Some v /\ hook_function (s_h s) o = Some f /\ h_mem (s_h s) sl = CHook f /\
    (forall x, In x R1 -> exists w, version (s_h s) x = Some w /\ (w < v)%Z) /\
    (forall x, In x R2 -> exists w, version (s_h s) x = Some w /\ (w <= v)%Z).
Proof.
  intros mem s R sl (pfs & vt & l & P & E) H.
  destruct (run_ordered mem l _ _ _ _ (Good_init pfs mem vt P) (ordered_init pfs mem vt) E) as [G O].
  exact (active_manager mem s R sl G O H).
Qed.
Print Assumptions C20_active_manager.

(** [R sl] lists exactly the managers registered on the slot, and every
    reachable state has such an order. *)
Theorem C20_registered : forall mem s R, reached_reg mem s R -> reachable mem s /\ forall sl o, In o (R sl) <-> In o (managers (s_h s) sl).
Proof.
  intros mem s R (pfs & vt & l & P & E). split.
  - exists pfs, vt, l. split; [exact P|]. revert E. generalize (init pfs mem vt) (fun _ : Z => @nil nat). induction l as [|e l IH]; intros s0 R0 E; cbn in *.
    + injection E as <- _. reflexivity.
    + destruct (step s0 e) as [s1| |]; try discriminate. exact (IH _ _ E).
  - destruct (run_ordered mem l _ _ _ _ (Good_init pfs mem vt P) (ordered_init pfs mem vt) E) as [_ O]. intros sl. apply O.
Qed.
Print Assumptions C20_registered.
Theorem C20_order_exists : forall mem s, reachable mem s -> exists R, reached_reg mem s R.
Proof.
  intros mem s (pfs & vt & l & P & E).
  assert (X : forall l s0 R0, run s0 l = Ok s -> exists R, run_reg s0 R0 l = Some (s, R)).
  { clear. intros l. induction l as [|e l IH]; intros s0 R0 E; cbn in *; [injection E as <-; eauto|]. destruct (step s0 e); try discriminate. auto. }
  destruct (X l (init pfs mem vt) (fun _ => []) E) as (R & ER). exists R, pfs, vt, l. auto.
Qed.
Print Assumptions C20_order_exists.

(** Registration calls: at every point of a history a manager was registered
    as often as unregistered, or once more; once more exactly while it is the
    active manager of some slot. *)
Theorem C20_register_unregister : forall mem s, reachable mem s -> forall o,
  (forall t1 t2, h_tr (s_h s) = t1 ++ t2 -> unregs o t2 <= regs o t2 <= S (unregs o t2)) /\
  ((exists sl, hd_error (managers (s_h s) sl) = Some o) -> regs o (h_tr (s_h s)) = S (unregs o (h_tr (s_h s)))) /\
  ((forall sl, hd_error (managers (s_h s) sl) <> Some o) -> regs o (h_tr (s_h s)) = unregs o (h_tr (s_h s))).
Proof.
  intros mem s R o. pose proof (reachable_good mem s R) as G. destruct (g_wr _ _ G) as [A1 A2]. pose proof (active_managers mem s o G) as A.
  split; [intros t1 t2; apply A2|]. split.
  - intros H. apply A in H. rewrite A1, H. lia.
  - intros H. rewrite A1. assert (X : act_num (s_h s) o <> 1) by (intros C; apply A in C; destruct C as (sl & C); exact (H sl C)).
    unfold act_num in *. destruct (vfns_of (s_h s) o) as [[|x y]|]; lia.
Qed.
Print Assumptions C20_register_unregister.

Example C20_ex : match run_reg ex_init (fun _ => []) (ex_hist ++ [EAddHook 3 ANormal 1000 0 101 50 false]) with
                 | Some (s, R) => map (hook_function (s_h s)) (R ex_slot) = [Some 100; Some 101; Some 101]%Z /\
                                  map (manager_of (s_h s)) (managers (s_h s) ex_slot) = [Some 2; Some 3; Some 1]%Z
                 | None => False end.
Proof. vm_compute. split; reflexivity. Qed.

(** ** C23 Complete shutdown *)
Theorem C23_shutdown : forall mem s, reachable mem s ->
  exists s' new, step s EShutdown = Ok s' /\ since s s' new /\
    (forall sl a p, installed (s_h s') sl a p = []) /\ (forall sl, h_mem (s_h s') sl = COrig (mem sl)) /\
    (forall sl a p k, In k (installed (s_h s) sl a p) -> In (hk_nid k) (deleted new)).
Proof. exact cl_shutdown. Qed.
Print Assumptions C23_shutdown.

Example C23_ex : ex_ids (ex_run (ex_hist ++ [EShutdown])) = [] /\ length (deleted (h_tr (s_h (ex_run (ex_hist ++ [EShutdown]))))) = 3.
Proof. split; vm_compute; reflexivity. Qed.

(** ** C24 RemoveHookManager also removes the hooks that use it *)
(** What it does: the manager goes; on slots where it was the only manager all
    hooks (of every plugin) go, on other slots every hook stays. *)
Theorem C24_remove_manager_partial : forall mem s, reachable mem s -> forall plug pf o,
  manager_of (s_h s) o = Some plug -> hook_function (s_h s) o = Some pf ->
  exists s', step s (ERemoveMan plug pf) = Ok s' /\ manager_of (s_h s') o = None /\
    (forall o', o' <> o -> manager_of (s_h s') o' = manager_of (s_h s) o') /\
    (forall sl, managers (s_h s) sl = [o] -> forall a p, installed (s_h s') sl a p = []) /\
    (forall sl, managers (s_h s) sl <> [o] -> forall a p, installed (s_h s') sl a p = installed (s_h s) sl a p).
Proof. exact cl_remove_man. Qed.
Print Assumptions C24_remove_manager_partial.

(** The documented behaviour is false: the plugin's hook stays when another
    manager is registered on the slot. *)
Theorem C24_removes_hooks_refuted : exists mem s s' k,
  reachable mem s /\ step s (ERemoveMan 2 101) = Ok s' /\
  In k (installed (s_h s) ex_slot 1000 false) /\ hk_plug k = 2%Z /\ recorded (s_h s) (hk_id k) (PfInfo 6 0 2 ex_proto) /\
  ex_pfs 101 = Some (PfInfo 6 0 2 ex_proto) /\ In k (installed (s_h s') ex_slot 1000 false).
Proof.
  set (l := [EAddHook 1 ANormal 1000 0 100 42 false; EAddHook 2 ANormal 1000 0 101 43 false]).
  exists ex_mem, (ex_run l), (ex_run (l ++ [ERemoveMan 2 101])).
  destruct (nth_error (installed (s_h (ex_run l)) ex_slot 1000 false) 1) as [k|] eqn:E; [|vm_compute in E; discriminate].
  vm_compute in E. injection E as <-. eexists.
  split; [apply ex_reach; vm_compute; reflexivity|]. split; [vm_compute; reflexivity|]. split; [vm_compute; right; left; reflexivity|].
  split; [reflexivity|]. split; [vm_compute; eexists; split; reflexivity|]. split; [reflexivity|]. vm_compute. right; left; reflexivity.
Qed.
Print Assumptions C24_removes_hooks_refuted.

(** And another plugin's hook goes when its own manager has left the slot
    before: plugin 1 loses its hook through plugin 2's RemoveHookManager. *)
Theorem C24_only_own_hooks_refuted : exists mem s s',
  reachable mem s /\ step s (ERemoveMan 2 101) = Ok s' /\
  map hk_plug (installed (s_h s) ex_slot 1000 false) = [1; 2]%Z /\ installed (s_h s') ex_slot 1000 false = [].
Proof.
  set (l := [EAddHook 1 ANormal 1000 0 100 42 false; EAddHook 2 ANormal 1000 0 101 43 false; ERemoveMan 1 100]).
  exists ex_mem, (ex_run l), (ex_run (l ++ [ERemoveMan 2 101])).
  split; [apply ex_reach; vm_compute; reflexivity|]. split; [vm_compute; reflexivity|]. split; vm_compute; reflexivity.
Qed.
Print Assumptions C24_only_own_hooks_refuted.
