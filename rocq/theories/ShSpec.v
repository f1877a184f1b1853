(** Vocabulary of the statements about hooks: what a client can observe. *)
From Coq Require Import List Bool Arith ZArith.
From Verif Require Import ProtoModel ProtoSpec ProtoProofs ShModel ShRun.
Import ListNotations.
Local Open Scope nat_scope.

(** The hooks installed on vtable slot [s] for interface pointer [a] (0: for
    the whole vtable), in the order in which they are run. *)
Definition installed (h : hs) (s a : Z) (post : bool) : list hook :=
  flat_map (fun v => if Z.eqb (vf_ptr v) s
                     then flat_map (fun i => if Z.eqb (if_ptr i) a then (if post then if_post i else if_pre i) else [])
                                   (vf_ifaces v)
                     else []) (h_vfns h).

(** Some hook is installed on the slot. *)
Definition hooked (h : hs) (s : Z) : Prop := exists a p k, In k (installed h s a p).

(** States that some history of events leads to, starting with the vtable
    contents [mem]. *)
Definition reachable (mem : Z -> Z) (s : state) : Prop :=
  exists pfs vt l, (forall f i, pfs f = Some i -> proto_wf (pf_proto i)) /\ run (init pfs mem vt) l = Ok s.

(** The identity of a hook: everything except the paused flag. *)
Definition same_hook (k k' : hook) : Prop :=
  hk_nid k' = hk_nid k /\ hk_plug k' = hk_plug k /\ hk_offs k' = hk_offs k /\ hk_handler k' = hk_handler k /\ hk_id k' = hk_id k.

(** The observations made between two states (newest first). *)
Definition since (s s' : state) (new : list obs) : Prop := h_tr (s_h s') = new ++ h_tr (s_h s).

Definition without (D : hook -> bool) (l : list hook) : list hook := filter (fun k => negb (D k)) l.
Definition pause_when (D : hook -> bool) (p : bool) (k : hook) : hook :=
  if D k then Hook (hk_nid k) (hk_plug k) (hk_offs k) (hk_handler k) (hk_id k) p else k.

(** The hook managers registered on a slot, the active one first. *)
Definition managers (h : hs) (s : Z) : list nat :=
  flat_map (fun v => if Z.eqb (vf_ptr v) s then vf_mans v else []) (h_vfns h).

(** The hook manager information (protocol version, vtable offset and index,
    prototype) given when the hook with this id was added. *)
Definition recorded (h : hs) (id : Z) (i : pfinfo) : Prop :=
  exists e, query_hook (h_ids h) id = Some e /\ en_info e = i.

(** The order in which the managers of a slot registered there, kept alongside
    a history: managers that leave are dropped, new ones are put at the end. *)
Definition reg_next (h h' : hs) (R : Z -> list nat) (sl : Z) : list nat :=
  filter (fun o => memb o (managers h' sl)) (R sl) ++ filter (fun o => negb (memb o (managers h sl))) (managers h' sl).
Fixpoint run_reg (s : state) (R : Z -> list nat) (l : list event) : option (state * (Z -> list nat)) :=
  match l with
  | [] => Some (s, R)
  | e :: l' => match step s e with Ok s' => run_reg s' (reg_next (s_h s) (s_h s') R) l' | _ => None end
  end.
Definition reached_reg (mem : Z -> Z) (s : state) (R : Z -> list nat) : Prop :=
  exists pfs vt l, (forall f i, pfs f = Some i -> proto_wf (pf_proto i)) /\ run_reg (init pfs mem vt) (fun _ => []) l = Some (s, R).

(** The version of a registered manager and its hook function *)
Definition version (h : hs) (o : nat) : option Z := option_map (fun m => pf_ver (mn_info m)) (get_man h o).
Definition hook_function (h : hs) (o : nat) : option Z := option_map mn_pf (get_man h o).

(** Every hook's plugin has a manager registered on the hook's slot. *)
Definition manager_of (h : hs) (o : nat) : option Z := option_map mn_plug (get_man h o).
Definition no_orphans (h : hs) : Prop :=
  forall sl a p k, In k (installed h sl a p) -> exists o, In o (managers h sl) /\ manager_of h o = Some (hk_plug k).
(** RemoveHookManager (also through SH_MANUALHOOK_RECONFIGURE) is only used by
    a plugin that has no hooks on the slots the manager is registered on. *)
Definition tidy_man (h : hs) (plug pf : Z) : Prop :=
  forall o sl a p k, In o (managers h sl) -> manager_of h o = Some plug -> hook_function h o = Some pf ->
    In k (installed h sl a p) -> hk_plug k <> plug.
Fixpoint tidy (s : state) (l : list event) : Prop :=
  match l with
  | [] => True
  | e :: l' =>
      match e with ERemoveMan plug pf | EReconfigure plug pf _ _ => tidy_man (s_h s) plug pf | _ => True end /\
      match step s e with Ok s' => tidy s' l' | _ => True end
  end.

(** Where a hook added with these arguments goes (sourcehook.h, documentation
    of AddHook): slot and interface pointer. *)
Definition add_slot (h : hs) (mode : addmode) (ifp offs : Z) (i : pfinfo) : Z :=
  match mode with
  | ADVP => (ifp + 8 * pf_vidx i)%Z
  | _ => (h_vt h (ifp + offs + pf_voffs i) + 8 * pf_vidx i)%Z
  end.
Definition add_ptr (mode : addmode) (ifp offs : Z) : Z := match mode with ANormal => (ifp + offs)%Z | _ => 0%Z end.

(** [k] (on interface pointer [a], list [p]) is a hook that RemoveHook with
    these arguments is meant to remove. *)
Definition rm_target (h : hs) (plug ifp offs pf handler : Z) (post : bool) (a : Z) (p : bool) (k : hook) : Prop :=
  exists i i0, h_pfs h pf = Some i /\ recorded h (hk_id k) i0 /\
    compatible (pf_proto i0) (pf_proto i) /\ pf_voffs i0 = pf_voffs i /\ pf_vidx i0 = pf_vidx i /\
    a = (ifp + offs)%Z /\ p = post /\ hk_plug k = plug /\ hk_offs k = offs /\ hk_handler k = handler.

(** No handler is called after its destruction (newest observation first). *)
Definition never_called_destroyed (t : list obs) : Prop :=
  forall t1 t2 f n hd ip pr, t = t1 ++ OHandler f n hd ip pr :: t2 -> ~ In (ODelete n) t2.
