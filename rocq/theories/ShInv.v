(** Invariants of the SourceHook data structures (everything except contexts
    and call stack).  They hold between API calls whatever plugins do. *)
From Coq Require Import List Bool Arith ZArith Lia Sorted.
From Verif Require Import ProtoModel ShModel ShLists.
Import ListNotations.
Local Open Scope nat_scope.

(** ** Managers and vtable slots *)
Definition mkey4 (m : man) := (mn_obj m, (mn_plug m, mn_pf m), pf_ver (mn_info m)).
Definition man_pf (h : hs) (o : nat) : option Z := option_map mn_pf (get_man h o).
Definition man_plug (h : hs) (o : nat) : option Z := option_map mn_plug (get_man h o).
Definition vfns_of (h : hs) (o : nat) : option (list nat) := option_map mn_vfns (get_man h o).

Definition ver_ge (h : hs) (a b : nat) : Prop :=
  match man_ver h a, man_ver h b with Some x, Some y => (y <= x)%Z | _, _ => False end.

(** What the slot of a vfnptr contains. *)
Definition slot_code (h : hs) (v : vfn) : option code :=
  match vf_mans v with
  | [] => Some (vf_orig v)
  | mo :: _ => option_map CHook (man_pf h mo)
  end.

Record WM (m0 : Z -> Z) (h : hs) : Prop := {
  wm_vobj : NoDup (map vf_obj (h_vfns h));
  wm_vptr : NoDup (map vf_ptr (h_vfns h));
  wm_mobj : NoDup (map mn_obj (h_mans h));
  wm_mkey : NoDup (map (fun m => (mn_plug m, mn_pf m)) (h_mans h));
  wm_ref : forall v mo, In v (h_vfns h) -> In mo (vf_mans v) -> exists m, get_man h mo = Some m;
  wm_nd : forall v, In v (h_vfns h) -> NoDup (vf_mans v);
  wm_sort : forall v, In v (h_vfns h) -> StronglySorted (ver_ge h) (vf_mans v);
  wm_vnd : forall mo l, vfns_of h mo = Some l -> NoDup l;
  wm_act : forall mo l vo, vfns_of h mo = Some l ->
           (In vo l <-> exists v, In v (h_vfns h) /\ vf_obj v = vo /\ hd_error (vf_mans v) = Some mo);
  wm_mem : forall v, In v (h_vfns h) -> slot_code h v = Some (h_mem h (vf_ptr v));
  wm_orig : forall v, In v (h_vfns h) -> vf_orig v = COrig (m0 (vf_ptr v));
  wm_mem0 : forall s, (forall v, In v (h_vfns h) -> vf_ptr v <> s) -> h_mem h s = COrig (m0 s);
  wm_ver : forall m, In m (h_mans h) ->
           exists i, h_pfs h (mn_pf m) = Some i /\ pf_ver i = pf_ver (mn_info m) /\ pf_ver i <> (-1)%Z;
  wm_fresh_v : forall v, In v (h_vfns h) -> vf_obj v < h_nxt h;
  wm_fresh_m : forall m, In m (h_mans h) -> mn_obj m < h_nxt h }.

(** The parts of a vfnptr that manager operations leave alone, and the parts
    that hook operations leave alone. *)
Definition vsk (v : vfn) := (vf_obj v, vf_ptr v, vf_thunk v, vf_orig v, vf_ifaces v).
Definition msk (v : vfn) := (vf_obj v, vf_ptr v, vf_orig v, vf_mans v).

(** [h'] differs from [h] only in managers (not their identity), ms_HI and trace *)
Record mans_upd (h h' : hs) : Prop := {
  mu_pfs : h_pfs h' = h_pfs h; mu_vfns : h_vfns h' = h_vfns h; mu_ids : h_ids h' = h_ids h;
  mu_mem : h_mem h' = h_mem h; mu_vt : h_vt h' = h_vt h; mu_delegs : h_delegs h' = h_delegs h;
  mu_thunks : h_thunks h' = h_thunks h; mu_nxt : h_nxt h' = h_nxt h;
  mu_key : map mkey4 (h_mans h') = map mkey4 (h_mans h) }.

(** [h'] differs from [h] only in managers, ms_HI, trace, manager lists of
    vfnptrs and slot contents *)
Record hooks_same (h h' : hs) : Prop := {
  hsm_pfs : h_pfs h' = h_pfs h; hsm_vfns : map vsk (h_vfns h') = map vsk (h_vfns h);
  hsm_ids : h_ids h' = h_ids h; hsm_vt : h_vt h' = h_vt h; hsm_delegs : h_delegs h' = h_delegs h;
  hsm_thunks : h_thunks h' = h_thunks h; hsm_nxt : h_nxt h' = h_nxt h }.

(** ** Hooks, hook ids and delegates *)
(** Hook [k] is installed on slot [s] for interface pointer [a] (0: all). *)
Definition hook_at (h : hs) (s a : Z) (post : bool) (k : hook) : Prop :=
  exists v i, In v (h_vfns h) /\ vf_ptr v = s /\ In i (vf_ifaces v) /\ if_ptr i = a /\ In k (hooks_of post i).

Definition entry_for (e : entry) (s a : Z) (post : bool) (k : hook) : Prop :=
  en_vfnptr e = s /\ en_adj e = a /\ en_post e = post /\ en_plug e = hk_plug k /\
  en_offs e = hk_offs k /\ en_nid e = hk_nid k /\ en_handler e = hk_handler k.

Record WH (h : hs) : Prop := {
  wh_vptr : NoDup (map vf_ptr (h_vfns h));
  wh_vobj : NoDup (map vf_obj (h_vfns h));
  wh_iptr : forall v, In v (h_vfns h) -> NoDup (map if_ptr (vf_ifaces v));
  wh_iobj : forall v1 i1 v2 i2, In v1 (h_vfns h) -> In i1 (vf_ifaces v1) -> In v2 (h_vfns h) ->
            In i2 (vf_ifaces v2) -> if_obj i1 = if_obj i2 -> vf_ptr v1 = vf_ptr v2 /\ if_ptr i1 = if_ptr i2;
  wh_sorted : forall v i post, In v (h_vfns h) -> In i (vf_ifaces v) ->
              StronglySorted lt (map hk_nid (hooks_of post i));
  wh_entry : forall s a post k, hook_at h s a post k ->
             exists e, query_hook (h_ids h) (hk_id k) = Some e /\ entry_for e s a post k;
  wh_hook : forall id e, query_hook (h_ids h) id = Some e ->
            exists k, hook_at h (en_vfnptr e) (en_adj e) (en_post e) k /\ hk_id k = id;
  wh_nid : forall id e id' e', query_hook (h_ids h) id = Some e -> query_hook (h_ids h) id' = Some e' ->
           en_nid e = en_nid e' -> id = id';
  wh_delegs : forall n, In n (h_delegs h) <-> exists id e, query_hook (h_ids h) id = Some e /\ en_nid e = n;
  wh_dnd : NoDup (h_delegs h);
  wh_fresh_i : forall v i, In v (h_vfns h) -> In i (vf_ifaces v) -> if_obj i < h_nxt h;
  wh_fresh_n : forall n, In n (h_delegs h) -> n < h_nxt h }.

(** ** Nothing is empty *)
Definition vfn_full (v : vfn) : Prop :=
  vf_mans v <> [] /\ vf_ifaces v <> [] /\ (forall i, In i (vf_ifaces v) -> if_pre i ++ if_post i <> []).
Definition WN (h : hs) : Prop := forall v, In v (h_vfns h) -> vfn_full v.

(** ** Trampolines: those of vfnptrs and those waiting in cleanup tasks *)
Definition vfn_thunks (h : hs) : list nat :=
  flat_map (fun v => match vf_thunk v with Some t => [t] | None => [] end) (h_vfns h).
Record WT (h : hs) (ts : tasks) : Prop := {
  wt_nd : NoDup (vfn_thunks h ++ map snd ts);
  wt_live : forall t, In t (vfn_thunks h ++ map snd ts) <-> In t (h_thunks h);
  wt_tnd : NoDup (h_thunks h);
  wt_task : NoDup (map fst ts);
  wt_fresh : forall t, In t (h_thunks h) -> t < h_nxt h;
  wt_freshk : forall t, In t (map fst ts) -> t < h_nxt h }.

Record WF (m0 : Z -> Z) (k : core) : Prop := {
  wf_m : WM m0 (c_h k); wf_h : WH (c_h k); wf_n : WN (c_h k); wf_t : WT (c_h k) (c_tasks k) }.

(** ** Which manager a hook function class knows (ms_HI) *)
(** No two managers with the same public function. *)
Definition unshared (h : hs) : Prop :=
  forall o1 o2 f, man_pf h o1 = Some f -> man_pf h o2 = Some f -> o1 = o2.
Definition active (h : hs) (o : nat) : Prop := exists x l, vfns_of h o = Some (x :: l).
Record WS (h : hs) : Prop := {
  ws_unshared : unshared h;
  ws_act : forall o, active h o -> exists f, man_pf h o = Some f /\ h_mshi h f = Some o;
  ws_reg : forall f o, h_mshi h f = Some o -> man_pf h o = Some f /\ active h o }.

(** Register and Unregister calls made so far. *)
Fixpoint regs (o : nat) (t : list obs) : nat :=
  match t with
  | [] => 0
  | ORegister x :: t' => (if x =? o then 1 else 0) + regs o t'
  | _ :: t' => regs o t'
  end.
Fixpoint unregs (o : nat) (t : list obs) : nat :=
  match t with
  | [] => 0
  | OUnregister x :: t' => (if x =? o then 1 else 0) + unregs o t'
  | _ :: t' => unregs o t'
  end.
Definition act_num (h : hs) (o : nat) : nat := match vfns_of h o with Some (_ :: _) => 1 | _ => 0 end.
(** Register and Unregister calls of a manager alternate, starting with Register. *)
Definition altern (t : list obs) : Prop :=
  forall o t1 t2, t = t1 ++ t2 -> unregs o t2 <= regs o t2 <= S (unregs o t2).
Definition WR (h : hs) : Prop :=
  (forall o, regs o (h_tr h) = unregs o (h_tr h) + act_num h o) /\ altern (h_tr h).

(** Delegates destroyed so far. *)
Fixpoint deleted (t : list obs) : list nat :=
  match t with
  | [] => []
  | ODelete n :: t' => n :: deleted t'
  | _ :: t' => deleted t'
  end.
Definition WD (h : hs) : Prop :=
  NoDup (deleted (h_tr h) ++ h_delegs h) /\
  forall n, In n (deleted (h_tr h) ++ h_delegs h) -> n < h_nxt h.

(** Observations made by operations on hooks (not by running hook functions). *)
Definition hook_obs (o : obs) : Prop :=
  match o with
  | ORegister _ | OUnregister _ | OPatch _ _ | ODelete _ | OThunkAlloc _ | OThunkFree _ => True
  | _ => False
  end.
Definition api_obs (o : obs) : Prop :=
  match o with
  | ORegister _ | OUnregister _ | OPatch _ _ | ODelete _ | OThunkAlloc _ | OThunkFree _ | OReady _ _ => True
  | _ => False
  end.
Definition tr_more (P : obs -> Prop) (h h' : hs) : Prop :=
  exists l, h_tr h' = l ++ h_tr h /\ Forall P l.
Record mstep (h h' : hs) : Prop := {
  ms_ws : WS h -> WS h'; ms_wr : WR h -> WR h'; ms_wd : WD h -> WD h'; ms_tr : tr_more hook_obs h h' }.
Lemma hook_api : forall o, hook_obs o -> api_obs o.
Proof. intros []; cbn; auto. Qed.
Lemma hook_apis : forall l, Forall hook_obs l -> Forall api_obs l.
Proof. intros l. apply Forall_impl, hook_api. Qed.
Lemma hook_more : forall h h', tr_more hook_obs h h' -> tr_more api_obs h h'.
Proof. intros h h' (l & E & F). exists l. split; [exact E|apply hook_apis; exact F]. Qed.
