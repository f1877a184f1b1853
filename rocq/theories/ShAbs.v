(** What the hook functions are supposed to do, told without contexts and
    iterators: a stack of activations, each of which walks through the lists of
    installed hooks.  ShRefine.v proves that the machine of ShRun.v does
    exactly this as long as its users keep to the rules [allowed] stated there. *)
From Coq Require Import List Bool Arith ZArith.
From Verif Require Import ProtoModel ShModel ShRun ShSpec.
Import ListNotations.
Local Open Scope nat_scope.

(** Some hook is on the slot / on the slot for this interface pointer. *)
Definition hookedb (h : hs) (s : Z) : bool := existsb (fun v => Z.eqb (vf_ptr v) s) (h_vfns h).
Definition presentb (h : hs) (s a : Z) : bool :=
  match installed h s a false ++ installed h s a true with [] => false | _ => true end.

(** An activation of a hook function.
    [a_alive]: it still runs handlers (not: ignoring hooks, after a recall, or
    after all hooks on the slot went away);
    [a_seen]: the object has had hooks of its own ever since the activation
    began; [a_run]: the handler that is running and whether it hooks the whole
    vtable; [a_v]: META status, previous result, current result, value of the
    original function, override value; [a_ifp]: the interface pointer the
    running handler was called with. *)
Record ahook := AHook { a_slot : Z; a_this : Z; a_param : Z; a_addr : code;
  a_alive : bool; a_seen : bool; a_callorig : bool; a_phase : phase; a_run : option (bool * nat); a_v : vars; a_ifp : Z }.

(** A frame: native function (with a flag: an SH_CALL whose request to ignore
    hooks has not been used yet) or activation of a hook function *)
Record aframe := AFrame { af_id : nat; af_after : after; af_ign : bool; af_hook : option ahook }.

Definition a_with_v (v : vars) (a : ahook) : ahook :=
  AHook (a_slot a) (a_this a) (a_param a) (a_addr a) (a_alive a) (a_seen a) (a_callorig a) (a_phase a) (a_run a) v (a_ifp a).
Definition a_go (z : Z) (p : phase) (r : option (bool * nat)) (v : vars) (a : ahook) : ahook :=
  AHook (a_slot a) (a_this a) (a_param a) (a_addr a) (a_alive a) (a_seen a) (a_callorig a) p r v z.
Definition a_at (p : phase) (r : option (bool * nat)) (v : vars) (a : ahook) : ahook := a_go (a_ifp a) p r v a.
Definition a_off (v : vars) (a : ahook) : ahook :=
  AHook (a_slot a) (a_this a) (a_param a) (a_addr a) false (a_seen a) (a_callorig a) (a_phase a) (a_run a) v (a_ifp a).

(** ** Which handler is next *)
Definition later (n : nat) (k : hook) : bool := n <? hk_nid k.
(** Hooks still to be considered, with the flag "for the whole vtable"; [from]:
    the handler run last in this loop *)
Definition todo (h : hs) (a : ahook) (post : bool) (from : option (bool * nat)) : list (bool * hook) :=
  let own := if a_seen a then installed h (a_slot a) (a_this a) post else [] in
  let all := installed h (a_slot a) 0 post in
  if a_alive a then
    match from with
    | None => map (pair false) own ++ map (pair true) all
    | Some (false, n) => map (pair false) (filter (later n) own) ++ map (pair true) all
    | Some (true, n) => map (pair true) (filter (later n) all)
    end
  else [].
Definition next (h : hs) (a : ahook) (post : bool) (from : option (bool * nat)) : option (bool * hook) :=
  find (fun x => negb (hk_paused (snd x))) (todo h a post from).

(** ** Running *)
(** Notifications still to be sent, and observations so far (newest first). *)
Record world := World { w_pend : list pend; w_obs : list obs }.
Definition wemit (o : obs) (w : world) : world := World (w_pend w) (o :: w_obs w).

(** An activation ends with [d] other contexts in use. *)
Definition close (d : nat) (w : world) : world :=
  if d =? 0 then let (r, o) := resolve_pending (w_pend w) in World r (rev o ++ w_obs w) else w.

Inductive aout := AStop (a : ahook) (w : world) | AFin (z : Z) (w : world).

Definition a_start (fid : nat) (a : ahook) (p : phase) (x : bool * hook) (w : world) : aout :=
  AStop (a_go (a_this a - hk_offs (snd x)) p (Some (fst x, hk_nid (snd x))) (vs_cur MIgnored (a_v a)) a)
        (wemit (OHandler fid (hk_nid (snd x)) (hk_handler (snd x)) (a_this a - hk_offs (snd x)) (a_param a)) w).

Definition a_value (v : vars) : Z := if meta_ge (v_status v) MOverride then v_vret v else v_oret v.

Definition a_post (h : hs) (fid d : nat) (a : ahook) (from : option (bool * nat)) (w : world) : aout :=
  match next h a true from with
  | Some x => a_start fid a PPost x w
  | None => AFin (a_value (a_v a)) (wemit (OEnd fid (a_value (a_v a))) (close d w))
  end.
Definition a_begin_post (h : hs) (fid d : nat) (a : ahook) (from : option (bool * nat)) (w : world) : aout :=
  a_post h fid d (a_with_v (vs_prev MIgnored (a_v a)) a) from (wemit (OPost fid) w).
Definition a_pre (h : hs) (fid d : nat) (a : ahook) (from : option (bool * nat)) (w : world) : aout :=
  match next h a false from with
  | Some x => a_start fid a PPre x w
  | None =>
      if negb (meta_ge (v_status (a_v a)) MSupercede) && a_callorig a
      then AStop (a_at POrig None (a_v a) a) (wemit (OOrig fid (a_addr a) (a_this a) (a_param a)) w)
      else a_begin_post h fid d a None w
  end.

(** A handler's result counts. *)
Definition meta_max (a b : meta) : meta := if meta_gt a b then a else b.
Definition v_done (z : Z) (v : vars) : vars :=
  Vars (meta_max (v_cur v) (v_status v)) (v_cur v) (v_cur v) (v_oret v)
       (if meta_ge (v_cur v) MOverride then z else v_vret v).
Definition a_done (h : hs) (fid d : nat) (a : ahook) (z : Z) (w : world) : aout :=
  match a_run a with
  | None => AStop a w
  | Some (vp, nid) =>
      let w1 := wemit (OHandlerRet fid nid (v_cur (a_v a)) z) w in
      let a1 := a_with_v (v_done z (a_v a)) a in
      match a_phase a with
      | PPost => a_post h fid d a1 (a_run a) w1
      | _ => a_pre h fid d a1 (a_run a) w1
      end
  end.

(** ** The stack *)
Record astate := AState { as_fr : list aframe; as_w : world }.

(** number of contexts in use *)
Fixpoint depth (l : list aframe) : nat :=
  match l with
  | [] => 0
  | f :: l' => (match af_hook f with Some _ => 1 | None => if af_ign f then 1 else 0 end) + depth l'
  end.

(** Use up the latest pending request to ignore hooks, if one was made since
    the last hook function was entered. *)
Fixpoint take_ign (l : list aframe) : option (list aframe) :=
  match l with
  | [] => None
  | f :: l' =>
      match af_hook f with
      | Some _ => None
      | None => if af_ign f then Some (AFrame (af_id f) (af_after f) false None :: l')
                else match take_ign l' with Some r => Some (f :: r) | None => None end
      end
  end.
(** ResetIgnoreHooks after an SH_CALL *)
Definition a_reset (l : list aframe) (w : world) : astate :=
  match take_ign l with
  | None => AState l w
  | Some r => AState r (close (depth r) w)
  end.

(** A function has returned [z] to a caller that continues with [aft]. *)
Fixpoint a_unwind (h : hs) (aft : after) (z : Z) (below : list aframe) (w : world) : astate :=
  match aft with
  | APlain => AState below w
  | AReset => a_reset below w
  | ARecall =>
      match below with
      | [] => AState [] w
      | f :: below' =>
          match af_hook f with
          | None => AState below w
          | Some a =>
              match a_done h (af_id f) (depth below') (a_with_v (vs_cur MSupercede (a_v a)) a) z w with
              | AStop a' w' => AState (AFrame (af_id f) (af_after f) false (Some a') :: below') w'
              | AFin z' w' => a_unwind h (af_after f) z' below' w'
              end
          end
      end
  end.
Definition a_resume (h : hs) (o : aout) (fid : nat) (aft : after) (below : list aframe) : astate :=
  match o with
  | AStop a w => AState (AFrame fid aft false (Some a) :: below) w
  | AFin z w => a_unwind h aft z below w
  end.

Definition v_init : vars := Vars MIgnored MIgnored MIgnored 0 0.
Definition orig_code (h : hs) (s : Z) : code := match orig_entry h s with Some c => c | None => h_mem h s end.

(** The function at the slot is called: native code ([ign]: through SH_CALL) *)
Definition a_native (h : hs) (this vo idx p : Z) (aft : after) (ign : bool) (A : list aframe) (w : world) : astate :=
  AState (AFrame (h_nxt h) aft ign None :: A)
         (wemit (ONative (h_nxt h) (h_mem h (slot_of h this vo idx)) this p) w).
(** ... a hook function that shall ignore hooks *)
Definition a_ignored (h : hs) (this vo idx p : Z) (aft : after) (A : list aframe) (w : world) : astate :=
  let s := slot_of h this vo idx in
  let fid := h_nxt h in
  a_resume h (a_pre h fid (depth A) (AHook s this p (orig_code h s) false false true PPre None v_init 0) None
                    (wemit (OBegin fid s this p KIgnored) w)) fid aft A.
(** ... a hook function *)
Definition a_hooked (h : hs) (this vo idx p : Z) (aft : after) (A : list aframe) (w : world) : astate :=
  let s := slot_of h this vo idx in
  let fid := h_nxt h in
  a_resume h (a_pre h fid (depth A) (AHook s this p (orig_code h s) true (presentb h s this) true PPre None v_init 0) None
                    (wemit (OBegin fid s this p KNormal) w)) fid aft A.

(** A handler of the activation on top recalls the function with new parameters
    and its own result [res], [val]. *)
Definition a_recall (h : hs) (res : meta) (val : Z) (p : Z) (f : aframe) (a : ahook) (nid : nat)
  (below : list aframe) (w : world) : astate :=
  let v1 := vs_cur res (vs_status (meta_max res (v_status (a_v a))) (a_v a)) in
  let A := AFrame (af_id f) (af_after f) false (Some (a_off v1 a)) :: below in
  let v2 := Vars (v_status v1) MIgnored MIgnored (v_oret (a_v a)) (if meta_ge res MOverride then val else v_vret (a_v a)) in
  let fid := h_nxt h in
  let w1 := wemit (OBegin fid (a_slot a) (a_this a) p (KRecall (af_id f))) (wemit (ORecall (af_id f) nid res val) w) in
  let a2 (c : bool) := AHook (a_slot a) (a_this a) p (orig_code h (a_slot a)) true (presentb h (a_slot a) (a_this a)) c PPre None v2 0 in
  a_resume h (match a_phase a with
              | PPost => a_begin_post h fid (depth A) (a2 false) (a_run a) w1
              | _ => a_pre h fid (depth A) (a2 true) (a_run a) w1
              end) fid ARecall A.

(** API functions change the hooks under the running activations. *)
Definition a_refresh (h : hs) (a : ahook) : ahook :=
  AHook (a_slot a) (a_this a) (a_param a) (a_addr a) (a_alive a && hookedb h (a_slot a))
        (a_seen a && presentb h (a_slot a) (a_this a)) (a_callorig a) (a_phase a) (a_run a) (a_v a) (a_ifp a).
Definition refresh (h : hs) (f : aframe) : aframe :=
  AFrame (af_id f) (af_after f) (af_ign f) (option_map (a_refresh h) (af_hook f)).

(** One event.  [h]: before, [h']: after the event *)
Definition is_hookcode (c : code) : bool := match c with CHook _ => true | COrig _ => false end.
Definition astep (h h' : hs) (A : list aframe) (p : list pend) (e : event) : option astate :=
  let w := World p [] in
  match e with
  | ECall this vo idx q =>
      Some (if is_hookcode (h_mem h (slot_of h this vo idx)) then
              match take_ign A with
              | Some A1 => a_ignored h this vo idx q APlain A1 w
              | None => a_hooked h this vo idx q APlain A w
              end
            else a_native h this vo idx q APlain false A w)
  | ESHCall this vo idx q =>
      Some (if is_hookcode (h_mem h (slot_of h this vo idx)) then a_ignored h this vo idx q AReset A w
            else a_native h this vo idx q AReset true A w)
  | EReturn z =>
      match A with
      | [] => None
      | f :: below =>
          match af_hook f with
          | None =>
              let w1 := wemit (ONativeRet (af_id f) z) w in
              Some (if af_ign f
                    then match af_after f with
                         | AReset => AState below (close (depth below) w1)
                         | _ => AState A w1
                         end
                    else a_unwind h (af_after f) z below w1)
          | Some a =>
              match a_run a with
              | Some _ => Some (a_resume h (a_done h (af_id f) (depth below) a z w) (af_id f) (af_after f) below)
              | None => Some (a_resume h (a_begin_post h (af_id f) (depth below) (a_with_v (vs_oret z (a_v a)) a) None
                                            (wemit (OOrigRet (af_id f) z) w)) (af_id f) (af_after f) below)
              end
          end
      end
  | ESetRes m =>
      match A with
      | f :: below =>
          match af_hook f with
          | Some a => match a_run a with
                      | Some _ => Some (AState (AFrame (af_id f) (af_after f) false (Some (a_with_v (vs_cur m (a_v a)) a)) :: below) w)
                      | None => None
                      end
          | None => None
          end
      | [] => None
      end
  | ERecall res val _ _ _ q =>
      match A with
      | f :: below =>
          match af_hook f with
          | Some a => match a_run a with
                      | Some (_, nid) => Some (a_recall h res val q f a nid below w)
                      | None => None
                      end
          | None => None
          end
      | [] => None
      end
  | EUnload plug l =>
      Some (AState (map (refresh h') A) (World (if depth A =? 0 then p else p ++ [Pend plug l false]) []))
  | _ => Some (AState (map (refresh h') A) w)
  end.
