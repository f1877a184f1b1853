(** Hook functions, hook contexts and the call stack.
    Sources: /repo/core/sourcehook/sourcehook.cpp 319-363, 384-397, 434-649,
             719-898; sourcehook.h 590-640 (handler macros), 937-990 (hook
             function macros), 4741-4805 (SH_CALL).
    The machine is driven by events: what the environment (plugins, the game)
    does next.  Between two events the hook functions run to the next point
    where foreign code runs. *)
From Coq Require Import List Bool Arith ZArith.
From Verif Require Import ProtoModel ShModel.
Import ListNotations.
Local Open Scope nat_scope.

(** Local variables of a hook function activation (sourcehook.h 943-952). *)
Record vars := Vars { v_status : meta; v_prev : meta; v_cur : meta; v_oret : Z; v_vret : Z }.

Definition vs_status (m : meta) (v : vars) := Vars m (v_prev v) (v_cur v) (v_oret v) (v_vret v).
Definition vs_prev (m : meta) (v : vars) := Vars (v_status v) m (v_cur v) (v_oret v) (v_vret v).
Definition vs_cur (m : meta) (v : vars) := Vars (v_status v) (v_prev v) m (v_oret v) (v_vret v).
Definition vs_oret (z : Z) (v : vars) := Vars (v_status v) (v_prev v) (v_cur v) z (v_vret v).
Definition vs_vret (z : Z) (v : vars) := Vars (v_status v) (v_prev v) (v_cur v) (v_oret v) z.

(** What the caller does with the result: nothing special, ResetIgnoreHooks
    (SH_CALL), or RETURN_META_VALUE(MRES_SUPERCEDE, result) (recall). *)
Inductive after := APlain | AReset | ARecall.

Inductive phase := PPre | POrig | PPost.

(** Control part of a hook function activation.  [hi_run]: the handler that is
    running; [hi_ctx]: pContext; [hi_addr]: vfnptr_origentry *)
Record hinfo := HInfo { hi_pf : Z; hi_this : Z; hi_slot : Z; hi_param : Z; hi_ctx : nat;
                        hi_addr : option code; hi_phase : phase; hi_run : option nat }.

(** A frame of the call stack: a native (not hooked) function or a hook function *)
Record frame := Frame { f_id : nat; f_after : after; f_hook : option hinfo }.

Definition hi_set (p : phase) (r : option nat) (f : hinfo) : hinfo :=
  HInfo (hi_pf f) (hi_this f) (hi_slot f) (hi_param f) (hi_ctx f) (hi_addr f) p r.

(** PendingUnload, sourcehook_impl.h 290-319 *)
Record pend := Pend { pd_plug : Z; pd_listener : Z; pd_deact : bool }.

(** State without the call stack, and the whole state. *)
Record base := BaseS { b_k : core; b_pend : list pend; b_vars : list (nat * vars) }.
Record state := State { s_b : base; s_fr : list frame }.

Definition b_h (b : base) : hs := c_h (b_k b).
Definition b_cs (b : base) : cstack := c_cs (b_k b).
Definition set_k (b : base) (k : core) : base := BaseS k (b_pend b) (b_vars b).
Definition set_h (b : base) (h : hs) : base := set_k b (Core h (c_cs (b_k b)) (c_tasks (b_k b))).
Definition set_cs (b : base) (c : cstack) : base := set_k b (Core (c_h (b_k b)) c (c_tasks (b_k b))).
Definition set_vars (b : base) (v : list (nat * vars)) : base := BaseS (b_k b) (b_pend b) v.
Definition set_pend (b : base) (p : list pend) : base := BaseS (b_k b) p (b_vars b).
Definition bemit (b : base) (o : obs) : base := set_h b (emit (b_h b) o).

Definition var_is (fid : nat) (p : nat * vars) : bool := fst p =? fid.
Definition get_vars (b : base) (fid : nat) : option vars :=
  match find (var_is fid) (b_vars b) with Some p => Some (snd p) | None => None end.
Definition upd_vars (b : base) (fid : nat) (f : vars -> vars) : base :=
  set_vars b (upd_first (var_is fid) (fun p => (fst p, f (snd p))) (b_vars b)).

(** Access through a pointer to orig_ret / override_ret of some activation. *)
Definition read_ret (b : base) (p : option retptr) : option Z :=
  match p with
  | None => None
  | Some (RP fid o) =>
      match get_vars b fid with
      | None => None
      | Some v => Some (if o then v_oret v else v_vret v)
      end
  end.
Definition write_ret (b : base) (p : option retptr) (z : Z) : option base :=
  match p with
  | None => None
  | Some (RP fid o) =>
      match get_vars b fid with
      | None => None
      | Some _ => Some (upd_vars b fid (if o then vs_oret z else vs_vret z))
      end
  end.

(** ** The context stack (sh_stack.h 146-197) *)
Definition cs_at (c : cstack) (i : nat) : option ctx := nth_error (cs_slots c) i.
Definition cs_set (c : cstack) (i : nat) (x : ctx) : cstack := Cs (upd_nth i (fun _ => x) (cs_slots c)) (cs_depth c).
Definition cs_front (c : cstack) : option ctx :=
  match cs_depth c with O => None | S n => cs_at c n end.
Definition cs_set_front (c : cstack) (x : ctx) : cstack := cs_set c (cs_depth c - 1) x.
(** second() *)
Definition cs_second (c : cstack) : option ctx :=
  match cs_depth c with S (S n) => cs_at c n | _ => None end.
Definition cs_push (c : cstack) (x : ctx) : cstack :=
  if cs_depth c <? length (cs_slots c)
  then Cs (upd_nth (cs_depth c) (fun _ => x) (cs_slots c)) (S (cs_depth c))
  else Cs (cs_slots c ++ [x]) (S (cs_depth c)).
(** make_next(): the old contents of the slot; a new slot is default constructed *)
Definition cs_make_next (c : cstack) : ctx * cstack :=
  match nth_error (cs_slots c) (cs_depth c) with
  | Some x => (x, Cs (cs_slots c) (S (cs_depth c)))
  | None => (ctx0, Cs (cs_slots c ++ [ctx0]) (S (cs_depth c)))
  end.

(** ** SetupHookLoop *)
(** The search of a manager's m_VfnPtrs for the vfnptr at an address
    (sourcehook.cpp 518-525, 574-580): [None] dangling element,
    [Some None] not found *)
Fixpoint search_vfns (h : hs) (slot : Z) (l : list nat) : option (option vfn) :=
  match l with
  | [] => Some None
  | vo :: l' => match get_vfn h vo with
                | None => None
                | Some v => if Z.eqb (vf_ptr v) slot then Some (Some v) else search_vfns h slot l'
                end
  end.

(** ms_HI of the hook function class must be a live manager. *)
Definition hookfunc_vfn (h : hs) (pf slot : Z) : option (option vfn) :=
  match h_mshi h pf with
  | None => None
  | Some o => match get_man h o with
              | None => None
              | Some m => search_vfns h slot (mn_vfns m)
              end
  end.

Definition is_recall (s : cstate) : bool :=
  match s with SRecPre | SRecPreVP | SRecPost | SRecPostVP => true | _ => false end.
Definition is_recall_post (s : cstate) : bool :=
  match s with SRecPost | SRecPostVP => true | _ => false end.

Definition find_iface (v : vfn) (p : Z) : option iface := find (iface_at p) (vf_ifaces v).

(** sourcehook.cpp 566-603: the last part of SetupHookLoop.  [c]: the context
    with state and m_CallOrig already set *)
Definition setup_tail (h : hs) (c : ctx) (pf slot this : Z) (fid : nat) (orig over : option retptr)
  : option (ctx * option code) :=
  match hookfunc_vfn h pf slot with
  | None => None
  | Some None =>
      Some (Ctx SDead (cx_iter c) (cx_vfn c) None (Some fid) this orig over (cx_ifp c) (cx_call_orig c) (cx_task c), None)
  | Some (Some v) =>
      Some (Ctx (cx_state c) (cx_iter c) (Some (vf_obj v))
                (match find_iface v this with Some i => Some (if_obj i) | None => None end)
                (Some fid) this orig over (cx_ifp c) (cx_call_orig c) (cx_task c), Some (vf_orig v))
  end.

(** sourcehook.cpp 492-604: SetupHookLoop.  GetOrigCallAddr is the original
    entry or a trampoline to it; the model keeps the original entry.
    Result: index of the context, vfnptr_origentry ([None]: not set). *)
Definition setup_loop (b : base) (fid : nat) (pf slot this : Z) : option (base * nat * option code) :=
  let cs := b_cs b in
  let fresh (_ : unit) :=
    let (old, cs1) := cs_make_next cs in
    let c := Ctx SBorn (cx_iter old) (cx_vfn old) (cx_iface old) (cx_frame old) (cx_this old)
                 (cx_orig old) (cx_over old) (cx_ifp old) true (cx_task old) in
    match setup_tail (b_h b) c pf slot this fid (Some (RP fid true)) (Some (RP fid false)) with
    | None => None
    | Some (c', a) => Some (set_cs b (cs_set_front cs1 c'), cs_depth cs, a)
    end in
  match cs_front cs with
  | None => fresh tt
  | Some c =>
      match cx_state c with
      | SIgnore =>
          match hookfunc_vfn (b_h b) pf slot with
          | None => None
          | Some ov =>
              let c' := Ctx SDead (cx_iter c) (match ov with Some v => Some (vf_obj v) | None => cx_vfn c end)
                            (cx_iface c) (cx_frame c) (cx_this c) (Some (RP fid true)) (cx_over c)
                            (cx_ifp c) true (cx_task c) in
              Some (upd_vars (set_cs b (cs_set_front cs c')) fid (vs_status MIgnored), cs_depth cs - 1,
                    match ov with Some v => Some (vf_orig v) | None => None end)
          end
      | st =>
          if is_recall st then
            match cx_frame c with
            | None => None
            | Some pfid =>
                match get_vars b pfid with
                | None => None
                | Some pv =>
                    let b1 := upd_vars b fid (fun v => vs_prev (v_prev pv) (vs_status (v_status pv) v)) in
                    let post := is_recall_post st in
                    let orig := if post then cx_orig c else Some (RP fid true) in
                    let over := if post && negb (meta_ge (v_status pv) MOverride) then cx_orig c else cx_over c in
                    let c1 := Ctx st (cx_iter c) (cx_vfn c) (cx_iface c) (cx_frame c) (cx_this c)
                                  (cx_orig c) (cx_over c) (cx_ifp c) (negb post) (cx_task c) in
                    match setup_tail (b_h b) c1 pf slot this fid orig over with
                    | None => None
                    | Some (c', a) => Some (set_cs b1 (cs_set_front cs c'), cs_depth cs - 1, a)
                    end
                end
            end
          else fresh tt
      end
  end.

(** ** GetNext *)
(** The list after node [n]. *)
Fixpoint after_node (n : nat) (l : list hook) : option (list hook) :=
  match l with
  | [] => None
  | k :: l' => if hk_nid k =? n then Some l' else after_node n l'
  end.

(** [if (!m_Iter) m_Iter = begin(); else ++m_Iter;] on the list [l] of iface
    object [io]: what is left of the list.  An iterator of another list or on
    an erased node is undefined behaviour. *)
Definition adv (it : iter) (io : nat) (post : bool) (l : list hook) : option (list hook) :=
  match it with
  | INull => Some l
  | INode n => after_node n l
  | IEnd io' post' => if (io' =? io) && Bool.eqb post' post then Some l else None
  end.

(** sourcehook_impl.h 257-261: SkipPaused *)
Fixpoint skip_paused (l : list hook) : list hook :=
  match l with
  | [] => []
  | k :: l' => if hk_paused k then skip_paused l' else l
  end.

Definition obj_iface (h : hs) (io : nat) : option iface :=
  find (fun i => if_obj i =? io) (flat_map vf_ifaces (h_vfns h)).

(** One list of the loop (sourcehook.cpp 739-752, 762-776): the hook to call,
    or [None] at the end of the list. *)
Definition next_in (i : iface) (post : bool) (st : cstate) (c : ctx) : option (ctx * option hook) :=
  match adv (cx_iter c) (if_obj i) post (hooks_of post i) with
  | None => None
  | Some l =>
      match skip_paused l with
      | [] => Some (cx_set_state (cx_set_iter c (IEnd (if_obj i) post)) st, None)
      | k :: _ => Some (cx_set_state (cx_set_ifp (cx_set_iter c (INode (hk_nid k))) (Some (cx_this c - hk_offs k)%Z)) st, Some k)
      end
  end.

(** State_PreVP / State_PostVP *)
Definition next_vp (h : hs) (post : bool) (c : ctx) : option (ctx * option hook) :=
  let st := if post then SPostVP else SPreVP in
  let stop (c' : ctx) := Some (cx_set_state c' (if post then SDead else SOrigCall), None) in
  match cx_vfn c with
  | None => None
  | Some vo =>
      match get_vfn h vo with
      | None => None
      | Some v =>
          match find_iface v 0 with
          | None => stop c
          | Some i =>
              match next_in i post st c with
              | None => None
              | Some (c', Some k) => Some (c', Some k)
              | Some (c', None) => stop c'
              end
          end
      end
  end.

(** State_Pre / State_Post *)
Definition next_inst (h : hs) (post : bool) (c : ctx) : option (ctx * option hook) :=
  let vp (c' : ctx) := next_vp h post (cx_set_iter c' INull) in
  match cx_iface c with
  | None => vp c
  | Some io =>
      match obj_iface h io with
      | None => None
      | Some i =>
          match next_in i post (if post then SPost else SPre) c with
          | None => None
          | Some (c', Some k) => Some (c', Some k)
          | Some (c', None) => vp c'
          end
      end
  end.

(** sourcehook.cpp 722-847: GetNext *)
Definition get_next (h : hs) (c : ctx) : option (ctx * option hook) :=
  match cx_state c with
  | SDead => Some (c, None)
  | SBorn => next_inst h false (cx_set_iter c INull)
  | SRecPre | SPre => next_inst h false c
  | SRecPreVP | SPreVP => next_vp h false c
  | SOrigCall => next_inst h true (cx_set_iter c INull)
  | SPost => next_inst h true c
  | SPostVP => next_vp h true c
  | SRecPost => Some (cx_set_state c SPost, None)
  | SRecPostVP => Some (cx_set_state c SPostVP, None)
  | SIgnore | SJunk _ => Some (c, None)
  end.

(** ** EndContext *)
(** sourcehook.cpp 606-628: ResolvePendingUnloads(false): the notifications,
    oldest first, and what stays pending *)
Fixpoint resolve_pending (l : list pend) : list pend * list obs :=
  match l with
  | [] => ([], [])
  | p :: l' =>
      let (r, o) := resolve_pending l' in
      if pd_deact p then (r, OReady (pd_plug p) (pd_listener p) :: o)
      else (Pend (pd_plug p) (pd_listener p) true :: r, o)
  end.

Definition do_resolve (b : base) : base :=
  let (r, o) := resolve_pending (b_pend b) in
  set_pend (set_h b (set_tr (b_h b) (rev o ++ h_tr (b_h b)))) r.

(** sourcehook.cpp 630-641: EndContext *)
Definition end_context (b : base) : option base :=
  match cs_front (b_cs b) with
  | None => None
  | Some c =>
      match (match cx_task c with
             | None => Some (b_k b)
             | Some t => run_task (b_k b) t
             end) with
      | None => None
      | Some k =>
          let b1 := set_k b (Core (c_h k) (Cs (cs_slots (c_cs k)) (cs_depth (c_cs k) - 1)) (c_tasks k)) in
          if (cs_depth (b_cs b1) =? 0) && negb (length (b_pend b1) =? 0)
          then Some (do_resolve b1) else Some b1
      end
  end.

(** ** Hook functions *)
Inductive outcome := Stop (b : base) (f : hinfo) | Fin (b : base) (v : Z).

(** Call GetNext and, if there is a handler, call it (sourcehook.h 958-961). *)
Definition call_next (b : base) (fid : nat) (f : hinfo) : option (base * option hook) :=
  match cs_at (b_cs b) (hi_ctx f) with
  | None => None
  | Some c =>
      match get_next (b_h b) c with
      | None => None
      | Some (c', None) => Some (set_cs b (cs_set (b_cs b) (hi_ctx f) c'), None)
      | Some (c', Some k) =>
          if memb (hk_nid k) (h_delegs (b_h b)) then
            let b1 := set_cs b (cs_set (b_cs b) (hi_ctx f) c') in
            let b2 := upd_vars b1 fid (vs_cur MIgnored) in
            match cx_ifp c' with
            | None => None
            | Some ip => Some (bemit b2 (OHandler fid (hk_nid k) (hk_handler k) ip (hi_param f)), Some k)
            end
          else None
      end
  end.

(** SH_RETURN (sourcehook.h 979-983): the pointer is chosen, the context ended,
    then the value is read. *)
Definition finish (b : base) (fid : nat) (f : hinfo) : option outcome :=
  match get_vars b fid, cs_at (b_cs b) (hi_ctx f) with
  | Some v, Some c =>
      let p := if meta_ge (v_status v) MOverride then cx_over c else cx_orig c in
      match end_context b with
      | None => None
      | Some b1 =>
          match read_ret b1 p with
          | None => None
          | Some z => Some (Fin (bemit (set_vars b1 (del_first (var_is fid) (b_vars b1))) (OEnd fid z)) z)
          end
      end
  | _, _ => None
  end.

(** The loop over the post hooks, then SH_RETURN. *)
Definition run_post (b : base) (fid : nat) (f : hinfo) : option outcome :=
  match call_next b fid f with
  | None => None
  | Some (b1, Some k) => Some (Stop b1 (hi_set PPost (Some (hk_nid k)) f))
  | Some (b1, None) => finish b1 fid f
  end.

(** [prev_res = MRES_IGNORED] and the post loop *)
Definition begin_post (b : base) (fid : nat) (f : hinfo) : option outcome :=
  run_post (bemit (upd_vars b fid (vs_prev MIgnored)) (OPost fid)) fid f.

(** The loop over the pre hooks, then SH_CALL_ORIG (sourcehook.h 956-977). *)
Definition run_pre (b : base) (fid : nat) (f : hinfo) : option outcome :=
  match call_next b fid f with
  | None => None
  | Some (b1, Some k) => Some (Stop b1 (hi_set PPre (Some (hk_nid k)) f))
  | Some (b1, None) =>
      match get_vars b1 fid, cs_at (b_cs b1) (hi_ctx f) with
      | Some v, Some c =>
          if negb (meta_ge (v_status v) MSupercede) && cx_call_orig c then
            match hi_addr f with
            | None => None
            | Some a => Some (Stop (bemit b1 (OOrig fid a (hi_this f) (hi_param f))) (hi_set POrig None f))
            end
          else begin_post (upd_vars b1 fid (vs_oret (v_vret v))) fid f
      | _, _ => None
      end
  end.

(** A handler has returned [z] (sourcehook.h 961-966). *)
Definition handler_done (b : base) (fid : nat) (f : hinfo) (nid : nat) (z : Z) : option outcome :=
  match get_vars b fid, cs_at (b_cs b) (hi_ctx f) with
  | Some v, Some c =>
      let b1 := bemit b (OHandlerRet fid nid (v_cur v) z) in
      let b2 := upd_vars b1 fid (fun v => vs_status (if meta_gt (v_cur v) (v_status v) then v_cur v else v_status v)
                                            (vs_prev (v_cur v) v)) in
      match (if meta_ge (v_cur v) MOverride then write_ret b2 (cx_over c) z else Some b2) with
      | None => None
      | Some b3 =>
          match hi_phase f with
          | PPre => run_pre b3 fid f
          | PPost => run_post b3 fid f
          | POrig => None
          end
      end
  | _, _ => None
  end.

(** sourcehook.cpp 319-322: SetRes *)
Definition set_res (b : base) (m : meta) : option base :=
  match cs_front (b_cs b) with
  | None => None
  | Some c => match cx_frame c with
              | None => None
              | Some fid => match get_vars b fid with
                            | None => None
                            | Some _ => Some (upd_vars b fid (vs_cur m))
                            end
              end
  end.

(** sourcehook.cpp 434-450: SetIgnoreHooks, ResetIgnoreHooks *)
Definition set_ignore (b : base) : base :=
  set_cs b (cs_push (b_cs b) (Ctx SIgnore INull None None None 0 None None None false None)).
Definition reset_ignore (b : base) : option base :=
  match cs_front (b_cs b) with
  | Some c => match cx_state c with SIgnore => end_context b | _ => Some b end
  | None => Some b
  end.

(** A function called with continuation [a] has returned [z]; [below]: the rest
    of the call stack. *)
Fixpoint unwind (b : base) (a : after) (z : Z) (below : list frame) : option state :=
  match a with
  | APlain => Some (State b below)
  | AReset => match reset_ignore b with
              | None => None
              | Some b1 => Some (State b1 below)
              end
  | ARecall =>
      match set_res b MSupercede with
      | None => None
      | Some b1 =>
          match below with
          | [] => None
          | f :: below' =>
              match f_hook f with
              | None => None
              | Some h =>
                  match hi_run h with
                  | None => None
                  | Some nid =>
                      match handler_done b1 (f_id f) h nid z with
                      | None => None
                      | Some (Stop b2 h') => Some (State b2 (Frame (f_id f) (f_after f) (Some h') :: below'))
                      | Some (Fin b2 z') => unwind b2 (f_after f) z' below'
                      end
                  end
              end
          end
      end
  end.

Definition resume (o : option outcome) (fid : nat) (a : after) (below : list frame) : option state :=
  match o with
  | None => None
  | Some (Stop b f) => Some (State b (Frame fid a (Some f) :: below))
  | Some (Fin b z) => unwind b a z below
  end.

(** A virtual call: the object at [this], vtable pointer at [this + vo], entry
    [idx].  A hook function computes the slot from the position its class knows
    (sourcehook.h 940-941). *)
Definition slot_of (h : hs) (this vo idx : Z) : Z := (h_vt h (this + vo) + 8 * idx)%Z.

Definition do_call (s : state) (this vo idx param : Z) (a : after) : option state :=
  let b := s_b s in
  let h := b_h b in
  let fid := h_nxt h in
  let b0 := set_h b (set_nxt h (S fid)) in
  let slot := slot_of h this vo idx in
  match h_mem h slot with
  | COrig c => Some (State (bemit b0 (ONative fid (COrig c) this param)) (Frame fid a None :: s_fr s))
  | CHook pf =>
      match h_pfs h pf with
      | None => None
      | Some i =>
          let slot' := slot_of h this (pf_voffs i) (pf_vidx i) in
          let kd := match cs_front (b_cs b) with
                    | Some c => match cx_state c with
                                | SIgnore => KIgnored
                                | st => if is_recall st
                                        then match s_fr s with f :: _ => KRecall (f_id f) | [] => KNormal end
                                        else KNormal
                                end
                    | None => KNormal
                    end in
          let b1 := set_vars (bemit b0 (OBegin fid slot' this param kd))
                             ((fid, Vars MIgnored MIgnored MIgnored 0 0) :: b_vars b) in
          match setup_loop b1 fid pf slot' this with
          | None => None
          | Some (b2, ci, addr) =>
              let f := HInfo pf this slot' param ci addr PPre None in
              resume (run_pre (upd_vars b2 fid (vs_prev MIgnored)) fid f) fid a (s_fr s)
          end
      end
  end.

(** sourcehook.cpp 462-490: DoRecall *)
Definition recall_state (s : cstate) : cstate :=
  match s with
  | SBorn => SIgnore | SPre => SRecPre | SPreVP => SRecPreVP | SPost => SRecPost | SPostVP => SRecPostVP
  | SOrigCall => SJunk 12 | SDead => SJunk 13 | SIgnore => SJunk 14 | SRecPre => SJunk 15
  | SRecPreVP => SJunk 16 | SRecPost => SJunk 17 | SRecPostVP => SJunk 18 | SJunk n => SJunk (n + 7)
  end.

Definition do_recall (b : base) : option base :=
  match cs_front (b_cs b) with
  | None => None
  | Some c =>
      match cx_frame c with
      | None => None
      | Some fid =>
          match get_vars b fid with
          | None => None
          | Some _ =>
              let st := recall_state (cx_state c) in
              let b1 := upd_vars b fid (fun v => vs_status (if meta_gt (v_cur v) (v_status v) then v_cur v else v_status v) v) in
              let n := Ctx st (cx_iter c) None None (Some fid) 0 (if is_recall_post st then cx_orig c else None)
                           (cx_over c) None false None in
              let cs1 := cs_set_front (b_cs b1) (cx_set_state c SDead) in
              Some (set_cs b1 (cs_push cs1 n))
          end
      end
  end.

(** sourcehook.cpp 346-358: GetIfacePtr *)
Definition iface_ptr (b : base) : option Z :=
  match cs_front (b_cs b) with
  | None => None
  | Some c => if is_recall (cx_state c)
              then match cs_second (b_cs b) with Some c2 => cx_ifp c2 | None => None end
              else cx_ifp c
  end.

(** RETURN_META_VALUE_NEWPARAMS up to the call (sourcehook.h 627-640) *)
Definition recall_call (s : state) (res : meta) (val offs vo idx param : Z) : option state :=
  match set_res (s_b s) res with
  | None => None
  | Some b1 =>
      match do_recall b1 with
      | None => None
      | Some b2 =>
          match (if meta_ge res MOverride
                 then match cs_front (b_cs b2) with
                      | Some c => write_ret b2 (cx_over c) val
                      | None => None
                      end
                 else Some b2) with
          | None => None
          | Some b3 =>
              match iface_ptr b3 with
              | None => None
              | Some p => do_call (State b3 (s_fr s)) (p + offs) vo idx param ARecall
              end
          end
      end
  end.

(** ** Events *)
Inductive event :=
| ECall (this vo idx param : Z)
| ESHCall (this vo idx param : Z)
| EReturn (v : Z)
| ESetRes (m : meta)
| ERecall (res : meta) (val offs vo idx param : Z)
| EAddHook (plug : Z) (mode : addmode) (ifp offs pf handler : Z) (post : bool)
| ERemoveHook (plug ifp offs pf handler : Z) (post : bool)
| ERemoveById (id : Z)
| EPause (id : Z) (p : bool)
| EPausePlugin (plug : Z) (p : bool)
| EUnload (plug listener : Z)
| ERemoveMan (plug pf : Z)
| EReconfigure (plug pf voffs vidx : Z)
| EShutdown
| ESetVt (addr vt : Z).

(** Ok; not possible at this point; undefined behaviour *)
Inductive result := Ok (s : state) | Illegal | UB.
Definition of_opt (o : option state) : result := match o with Some s => Ok s | None => UB end.

Definition with_k (s : state) (k : core) : state := State (set_k (s_b s) k) (s_fr s).
Definition s_h (s : state) : hs := b_h (s_b s).
Definition s_k (s : state) : core := b_k (s_b s).

(** sourcehook.cpp 384-397: the end of UnloadPlugin *)
Definition unload_plugin (s : state) (plug listener : Z) : option state :=
  match unload_hooks (s_k s) plug with
  | None => None
  | Some k =>
      let b := set_k (s_b s) k in
      if cs_depth (c_cs k) =? 0
      then Some (State (bemit b (OReady plug listener)) (s_fr s))
      else Some (State (set_pend b (b_pend b ++ [Pend plug listener false])) (s_fr s))
  end.

(** sourcehook.h 929-935: SH_MANUALHOOK_RECONFIGURE *)
Definition reconfigure (k : core) (plug pf voffs vidx : Z) : option core :=
  match remove_hookman_pf k plug pf with
  | None => None
  | Some k1 =>
      match h_pfs (c_h k1) pf with
      | None => Some k1
      | Some i => Some (Core (set_pfs (c_h k1) (zupd (h_pfs (c_h k1)) pf (Some (PfInfo (pf_ver i) voffs vidx (pf_proto i)))))
                             (c_cs k1) (c_tasks k1))
      end
  end.

(** A handler is running on top of the stack. *)
Definition in_handler (s : state) : option (nat * nat) :=
  match s_fr s with
  | f :: _ => match f_hook f with
              | Some h => match hi_run h with Some nid => Some (f_id f, nid) | None => None end
              | None => None
              end
  | [] => None
  end.

Definition do_return (s : state) (v : Z) : result :=
  match s_fr s with
  | [] => Illegal
  | f :: below =>
      match f_hook f with
      | None => of_opt (unwind (bemit (s_b s) (ONativeRet (f_id f) v)) (f_after f) v below)
      | Some h =>
          match hi_run h, hi_phase h with
          | Some nid, _ => of_opt (resume (handler_done (s_b s) (f_id f) h nid v) (f_id f) (f_after f) below)
          | None, POrig =>
              let b1 := upd_vars (bemit (s_b s) (OOrigRet (f_id f) v)) (f_id f) (vs_oret v) in
              of_opt (resume (begin_post b1 (f_id f) h) (f_id f) (f_after f) below)
          | None, _ => Illegal
          end
      end
  end.

Definition step (s : state) (e : event) : result :=
  match e with
  | ECall this vo idx p => of_opt (do_call s this vo idx p APlain)
  | ESHCall this vo idx p => of_opt (do_call (State (set_ignore (s_b s)) (s_fr s)) this vo idx p AReset)
  | EReturn v => do_return s v
  | ESetRes m =>
      match in_handler s with
      | None => Illegal
      | Some _ => of_opt (match set_res (s_b s) m with Some b => Some (State b (s_fr s)) | None => None end)
      end
  | ERecall res val offs vo idx p =>
      match in_handler s with
      | None => Illegal
      | Some (fid, nid) =>
          of_opt (recall_call (State (bemit (s_b s) (ORecall fid nid res val)) (s_fr s)) res val offs vo idx p)
      end
  | EAddHook plug mode ifp offs pf handler post =>
      of_opt (match add_hook (s_h s) plug mode ifp offs pf handler post with
              | Some (h, _) => Some (with_k s (Core h (c_cs (s_k s)) (c_tasks (s_k s))))
              | None => None
              end)
  | ERemoveHook plug ifp offs pf handler post =>
      of_opt (match remove_hook (s_k s) plug ifp offs pf handler post with
              | Some (k, _) => Some (with_k s k)
              | None => None
              end)
  | ERemoveById id =>
      of_opt (match remove_by_id (s_k s) id with Some (k, _) => Some (with_k s k) | None => None end)
  | EPause id p =>
      Ok (with_k s (Core (fst (set_paused (s_h s) id p)) (c_cs (s_k s)) (c_tasks (s_k s))))
  | EPausePlugin plug p =>
      Ok (with_k s (Core (pause_plugin (s_h s) plug p) (c_cs (s_k s)) (c_tasks (s_k s))))
  | EUnload plug l => of_opt (unload_plugin s plug l)
  | ERemoveMan plug pf =>
      of_opt (match remove_hookman_pf (s_k s) plug pf with Some k => Some (with_k s k) | None => None end)
  | EReconfigure plug pf vo vi =>
      of_opt (match reconfigure (s_k s) plug pf vo vi with Some k => Some (with_k s k) | None => None end)
  | EShutdown =>
      of_opt (match complete_shutdown (s_k s) with Some k => Some (with_k s k) | None => None end)
  | ESetVt a vt =>
      Ok (with_k s (Core (set_vt (s_h s) (zupd (h_vt (s_h s)) a vt)) (c_cs (s_k s)) (c_tasks (s_k s))))
  end.

(** ** Queries from a handler (sourcehook.cpp 324-344) *)
Definition front_vars (s : state) : option vars :=
  match cs_front (b_cs (s_b s)) with
  | Some c => match cx_frame c with Some fid => get_vars (s_b s) fid | None => None end
  | None => None
  end.
Definition q_status (s : state) : option meta := match front_vars s with Some v => Some (v_status v) | None => None end.
Definition q_prev (s : state) : option meta := match front_vars s with Some v => Some (v_prev v) | None => None end.
Definition q_orig_ret (s : state) : option Z :=
  match cs_front (b_cs (s_b s)) with Some c => read_ret (s_b s) (cx_orig c) | None => None end.
(** [Some None]: a null pointer *)
Definition q_override_ret (s : state) : option (option Z) :=
  match cs_front (b_cs (s_b s)), q_status s with
  | Some c, Some m => if meta_ge m MOverride
                      then match read_ret (s_b s) (cx_over c) with Some z => Some (Some z) | None => None end
                      else Some None
  | _, _ => None
  end.
(** sourcehook.cpp 452-460: GetOrigVfnPtrEntry; [None]: NULL *)
Definition orig_entry (h : hs) (slot : Z) : option code :=
  match find (vfn_at slot) (h_vfns h) with Some v => Some (vf_orig v) | None => None end.

(** ** Initial states and executions *)
Definition init_hs (pfs : Z -> option pfinfo) (mem : Z -> Z) (vt : Z -> Z) : hs :=
  Hs pfs (fun _ => None) [] [] [] (fun a => COrig (mem a)) vt [] [] 0 [].
Definition init (pfs : Z -> option pfinfo) (mem : Z -> Z) (vt : Z -> Z) : state :=
  State (BaseS (Core (init_hs pfs mem vt) (Cs [] 0) []) [] []) [].

(** A history: events from a state, all of them possible and defined. *)
Fixpoint run (s : state) (l : list event) : result :=
  match l with
  | [] => Ok s
  | e :: l' => match step s e with Ok s' => run s' l' | r => r end
  end.
