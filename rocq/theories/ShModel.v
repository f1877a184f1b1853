(** The SourceHook machine: data structures of CSourceHookImpl and the API
    functions that work on hooks.  The hook functions and the call stack are in
    ShRun.v.
    Sources: /repo/core/sourcehook/sourcehook.cpp, sourcehook_impl*.{h,cpp},
             sourcehook.h (hook function macros).
    Conventions: object identities and list nodes are [nat] drawn from the
    counter [h_nxt] (never reused), machine addresses are [Z].  [None] is
    undefined behaviour unless said otherwise. *)
From Coq Require Import List Bool Arith ZArith.
From Verif Require Import ProtoModel.
Import ListNotations.
Local Open Scope nat_scope.

(** sourcehook.h 112-118: enum META_RES *)
Inductive meta := MIgnored | MHandled | MOverride | MSupercede.
Definition meta_num (m : meta) : nat :=
  match m with MIgnored => 0 | MHandled => 1 | MOverride => 2 | MSupercede => 3 end.
(** [a > b] and [a >= b] on META_RES *)
Definition meta_gt (a b : meta) : bool := meta_num b <? meta_num a.
Definition meta_ge (a b : meta) : bool := meta_num b <=? meta_num a.

(** Contents of a vtable slot: an original entry (an address) or the hook
    function of the hook manager public function [pf]. *)
Inductive code := COrig (a : Z) | CHook (pf : Z).

(** sourcehook_impl_chook.h: CHook; [hk_nid] is the identity of the list node
    and at the same time of the delegate object (one is allocated per
    successful AddHook, sourcehook.h 845-848); [hk_handler] is what IsEqual
    compares. *)
Record hook := Hook { hk_nid : nat; hk_plug : Z; hk_offs : Z; hk_handler : Z; hk_id : Z; hk_paused : bool }.

(** sourcehook_impl_ciface.h: CIface *)
Record iface := Iface { if_obj : nat; if_ptr : Z; if_pre : list hook; if_post : list hook }.

(** sourcehook_impl_cvfnptr.h: CVfnPtr; [vf_thunk]: m_OrigCallThunk *)
Record vfn := Vfn { vf_obj : nat; vf_ptr : Z; vf_orig : code; vf_thunk : option nat;
                    vf_mans : list nat; vf_ifaces : list iface }.

(** What a hook manager public function reports (SetInfo). *)
Record pfinfo := PfInfo { pf_ver : Z; pf_voffs : Z; pf_vidx : Z; pf_proto : proto }.

(** sourcehook_impl_chookmaninfo.h: CHookManager; [mn_vfns]: m_VfnPtrs *)
Record man := Man { mn_obj : nat; mn_plug : Z; mn_pf : Z; mn_info : pfinfo; mn_vfns : list nat }.

(** sourcehook_impl_chookidman.h: Entry *)
Record entry := Entry { en_free : bool; en_info : pfinfo; en_vfnptr : Z; en_adj : Z; en_plug : Z;
                        en_offs : Z; en_nid : nat; en_handler : Z; en_post : bool }.

(** How a hook function activation starts: with a fresh context, ignoring hooks
    (SH_CALL), or continuing the loop of activation [fid] (recall). *)
Inductive kind := KNormal | KIgnored | KRecall (fid : nat).

(** Observations, newest first in [h_tr]. *)
Inductive obs :=
| OBegin (fid : nat) (slot this param : Z) (k : kind)
| OHandler (fid nid : nat) (handler ifaceptr param : Z)
| OHandlerRet (fid nid : nat) (res : meta) (v : Z)
| ORecall (fid nid : nat) (res : meta) (v : Z)
| OOrig (fid : nat) (c : code) (this param : Z)
| OOrigRet (fid : nat) (v : Z)
| OPost (fid : nat)                (* the loop over the post hooks begins *)
| OEnd (fid : nat) (v : Z)
| ONative (fid : nat) (c : code) (this param : Z)
| ONativeRet (fid : nat) (v : Z)
| ODelete (nid : nat)
| ORegister (mo : nat) | OUnregister (mo : nat)
| OPatch (slot : Z) (c : code)
| OReady (plug listener : Z)
| OThunkAlloc (t : nat) | OThunkFree (t : nat).

(** Everything except contexts and call stack. *)
Record hs := Hs {
  h_pfs : Z -> option pfinfo;     (* public functions; None: reports an error *)
  h_mshi : Z -> option nat;       (* ms_HI of the hook function class, sourcehook.h 822 *)
  h_mans : list man;              (* m_HookManList *)
  h_vfns : list vfn;              (* m_VfnPtrs *)
  h_ids : list entry;             (* m_HookIDMan.m_Entries *)
  h_mem : Z -> code;              (* vtable slots *)
  h_vt : Z -> Z;                  (* vtable pointer stored at an address *)
  h_delegs : list nat;            (* delegate objects not yet destroyed *)
  h_thunks : list nat;            (* live trampolines *)
  h_nxt : nat;
  h_tr : list obs }.

(** field updates *)
Definition set_pfs (h : hs) x : hs := Hs x (h_mshi h) (h_mans h) (h_vfns h) (h_ids h) (h_mem h) (h_vt h) (h_delegs h) (h_thunks h) (h_nxt h) (h_tr h).
Definition set_mshi (h : hs) x : hs := Hs (h_pfs h) x (h_mans h) (h_vfns h) (h_ids h) (h_mem h) (h_vt h) (h_delegs h) (h_thunks h) (h_nxt h) (h_tr h).
Definition set_mans (h : hs) x : hs := Hs (h_pfs h) (h_mshi h) x (h_vfns h) (h_ids h) (h_mem h) (h_vt h) (h_delegs h) (h_thunks h) (h_nxt h) (h_tr h).
Definition set_vfns (h : hs) x : hs := Hs (h_pfs h) (h_mshi h) (h_mans h) x (h_ids h) (h_mem h) (h_vt h) (h_delegs h) (h_thunks h) (h_nxt h) (h_tr h).
Definition set_ids (h : hs) x : hs := Hs (h_pfs h) (h_mshi h) (h_mans h) (h_vfns h) x (h_mem h) (h_vt h) (h_delegs h) (h_thunks h) (h_nxt h) (h_tr h).
Definition set_mem (h : hs) x : hs := Hs (h_pfs h) (h_mshi h) (h_mans h) (h_vfns h) (h_ids h) x (h_vt h) (h_delegs h) (h_thunks h) (h_nxt h) (h_tr h).
Definition set_vt (h : hs) x : hs := Hs (h_pfs h) (h_mshi h) (h_mans h) (h_vfns h) (h_ids h) (h_mem h) x (h_delegs h) (h_thunks h) (h_nxt h) (h_tr h).
Definition set_delegs (h : hs) x : hs := Hs (h_pfs h) (h_mshi h) (h_mans h) (h_vfns h) (h_ids h) (h_mem h) (h_vt h) x (h_thunks h) (h_nxt h) (h_tr h).
Definition set_thunks (h : hs) x : hs := Hs (h_pfs h) (h_mshi h) (h_mans h) (h_vfns h) (h_ids h) (h_mem h) (h_vt h) (h_delegs h) x (h_nxt h) (h_tr h).
Definition set_nxt (h : hs) x : hs := Hs (h_pfs h) (h_mshi h) (h_mans h) (h_vfns h) (h_ids h) (h_mem h) (h_vt h) (h_delegs h) (h_thunks h) x (h_tr h).
Definition set_tr (h : hs) x : hs := Hs (h_pfs h) (h_mshi h) (h_mans h) (h_vfns h) (h_ids h) (h_mem h) (h_vt h) (h_delegs h) (h_thunks h) (h_nxt h) x.

Definition emit (h : hs) (o : obs) : hs := set_tr h (o :: h_tr h).
Definition zupd {A} (f : Z -> A) (k : Z) (v : A) : Z -> A := fun x => if Z.eqb x k then v else f x.

(** List helpers: List<T>::find, erase of the element found, in-place update. *)
Fixpoint upd_first {A} (p : A -> bool) (f : A -> A) (l : list A) : list A :=
  match l with
  | [] => []
  | x :: l' => if p x then f x :: l' else x :: upd_first p f l'
  end.
Fixpoint del_first {A} (p : A -> bool) (l : list A) : list A :=
  match l with
  | [] => []
  | x :: l' => if p x then l' else x :: del_first p l'
  end.

Definition man_is (o : nat) (m : man) : bool := mn_obj m =? o.
Definition man_key (plug pf : Z) (m : man) : bool := Z.eqb (mn_plug m) plug && Z.eqb (mn_pf m) pf.
Definition vfn_is (o : nat) (v : vfn) : bool := vf_obj v =? o.
Definition vfn_at (p : Z) (v : vfn) : bool := Z.eqb (vf_ptr v) p.
Definition iface_at (p : Z) (i : iface) : bool := Z.eqb (if_ptr i) p.
Definition hook_id_is (id : Z) (k : hook) : bool := Z.eqb (hk_id k) id.

Definition get_man (h : hs) (o : nat) : option man := find (man_is o) (h_mans h).
Definition get_vfn (h : hs) (o : nat) : option vfn := find (vfn_is o) (h_vfns h).

Definition set_mn_vfns (l : list nat) (m : man) : man :=
  Man (mn_obj m) (mn_plug m) (mn_pf m) (mn_info m) l.
Definition set_mn_info (i : pfinfo) (m : man) : man :=
  Man (mn_obj m) (mn_plug m) (mn_pf m) i (mn_vfns m).
Definition set_vf_mans (l : list nat) (v : vfn) : vfn :=
  Vfn (vf_obj v) (vf_ptr v) (vf_orig v) (vf_thunk v) l (vf_ifaces v).
Definition set_vf_ifaces (l : list iface) (v : vfn) : vfn :=
  Vfn (vf_obj v) (vf_ptr v) (vf_orig v) (vf_thunk v) (vf_mans v) l.
Definition hooks_of (post : bool) (i : iface) : list hook := if post then if_post i else if_pre i.
Definition set_hooks (post : bool) (l : list hook) (i : iface) : iface :=
  if post then Iface (if_obj i) (if_ptr i) (if_pre i) l
  else Iface (if_obj i) (if_ptr i) l (if_post i).

(** sourcehook_impl_chookmaninfo.cpp 18-28, chookmaninfo.h 88-91: the pf info
    if constructing a CHookManager gives a valid one. *)
Definition pf_valid (h : hs) (pf : Z) : option pfinfo :=
  match h_pfs h pf with
  | Some i => if Z.eqb (pf_ver i) (-1) then None else Some i
  | None => None
  end.

(** sourcehook_impl_chookmaninfo.cpp 40-50: Register calls the public function
    with store = true, which sets ms_HI and calls SetInfo again
    (sourcehook.h 796-816). *)
Definition mn_register (h : hs) (o : nat) : option hs :=
  match get_man h o with
  | None => None
  | Some m =>
      match h_pfs h (mn_pf m) with
      | None => Some (emit h (ORegister o))
      | Some i =>
          Some (emit (set_mans (set_mshi h (zupd (h_mshi h) (mn_pf m) (Some o)))
                               (upd_first (man_is o) (set_mn_info i) (h_mans h))) (ORegister o))
      end
  end.

(** 52-55: Unregister *)
Definition mn_unregister (h : hs) (o : nat) : option hs :=
  match get_man h o with
  | None => None
  | Some m =>
      match h_pfs h (mn_pf m) with
      | None => Some (emit h (OUnregister o))
      | Some _ => Some (emit (set_mshi h (zupd (h_mshi h) (mn_pf m) None)) (OUnregister o))
      end
  end.

(** 57-65: IncrRef *)
Definition incr_ref (h : hs) (o vo : nat) : option hs :=
  match get_man h o with
  | None => None
  | Some m =>
      let l := mn_vfns m ++ [vo] in
      let h1 := set_mans h (upd_first (man_is o) (set_mn_vfns l) (h_mans h)) in
      if length l =? 1 then mn_register h1 o else Some h1
  end.

(** 67-75: DecrRef; List::remove erases the first equal element *)
Definition decr_ref (h : hs) (o vo : nat) : option hs :=
  match get_man h o with
  | None => None
  | Some m =>
      let l := del_first (Nat.eqb vo) (mn_vfns m) in
      let h1 := set_mans h (upd_first (man_is o) (set_mn_vfns l) (h_mans h)) in
      if length l =? 0 then mn_unregister h1 o else Some h1
  end.

(** sourcehook_impl_cvfnptr.cpp 228-238: Patch.  MakePageWritable is assumed to
    succeed. *)
Definition patch (h : hs) (slot : Z) (c : code) : hs :=
  emit (set_mem h (zupd (h_mem h) slot c)) (OPatch slot c).

(** sourcehook_impl_cvfnptr.cpp 19-23, 31-85 and sourcehook.cpp 52-76:
    GetVfnPtr.  A trampoline is generated when the original entry is odd; hook
    functions are even.  Result: the object. *)
Definition odd_code (c : code) : bool := match c with COrig a => Z.odd a | CHook _ => false end.

Definition get_vfnptr (h : hs) (slot : Z) : hs * nat :=
  match find (vfn_at slot) (h_vfns h) with
  | Some v => (h, vf_obj v)
  | None =>
      let o := h_nxt h in
      let c := h_mem h slot in
      if odd_code c then
        let t := S o in
        (emit (set_nxt (set_thunks (set_vfns h (h_vfns h ++ [Vfn o slot c (Some t) [] []]))
                                   (t :: h_thunks h)) (S (S o))) (OThunkAlloc t), o)
      else
        (set_nxt (set_vfns h (h_vfns h ++ [Vfn o slot c None [] []])) (S o), o)
  end.

(** sourcehook_impl_chookmaninfo.cpp 77-95: GetHookMan *)
Definition get_hookman (h : hs) (plug pf : Z) (i : pfinfo) : hs * nat :=
  match find (man_key plug pf) (h_mans h) with
  | Some m => (h, mn_obj m)
  | None => let o := h_nxt h in
            (set_nxt (set_mans h (h_mans h ++ [Man o plug pf i []])) (S o), o)
  end.

(** Version of a manager object; managers in a vfnptr's list are live. *)
Definition man_ver (h : hs) (o : nat) : option Z :=
  match get_man h o with Some m => Some (pf_ver (mn_info m)) | None => None end.

(** sourcehook_impl_cvfnptr.cpp 168-175: position at the end of the version group *)
Fixpoint insert_man (h : hs) (o : nat) (ver : Z) (l : list nat) : option (list nat) :=
  match l with
  | [] => Some [o]
  | x :: l' =>
      match man_ver h x with
      | None => None
      | Some vx => if Z.ltb vx ver then Some (o :: l)
                   else match insert_man h o ver l' with
                        | None => None
                        | Some r => Some (x :: r)
                        end
      end
  end.

Definition memb (o : nat) (l : list nat) : bool := existsb (Nat.eqb o) l.

(** sourcehook_impl_cvfnptr.cpp 154-196: AddHookMan *)
Definition add_hookman (h : hs) (vo o : nat) : option hs :=
  match get_vfn h vo, get_man h o with
  | Some v, Some m =>
      if Z.eqb (pf_ver (mn_info m)) (-1) then Some h
      else if memb o (vf_mans v) then Some h
      else
        match insert_man h o (pf_ver (mn_info m)) (vf_mans v) with
        | None => None
        | Some l =>
            let h1 := set_vfns h (upd_first (vfn_is vo) (set_vf_mans l) (h_vfns h)) in
            match l with
            | first :: rest =>
                if first =? o then
                  match incr_ref h1 o vo with
                  | None => None
                  | Some h2 =>
                      match (match rest with
                             | second :: _ => decr_ref h2 second vo
                             | [] => Some h2
                             end) with
                      | None => None
                      | Some h3 => Some (patch h3 (vf_ptr v) (CHook (mn_pf m)))
                      end
                  end
                else Some h1
            | [] => None
            end
        end
  | _, _ => None
  end.

(** sourcehook_impl_cvfnptr.cpp 240-261: GetIface *)
Definition get_iface (h : hs) (vo : nat) (adj : Z) : option (hs * nat) :=
  match get_vfn h vo with
  | None => None
  | Some v =>
      match find (iface_at adj) (vf_ifaces v) with
      | Some i => Some (h, if_obj i)
      | None =>
          let o := h_nxt h in
          let i := Iface o adj [] [] in
          let l := if Z.eqb adj 0 then i :: vf_ifaces v else vf_ifaces v ++ [i] in
          Some (set_nxt (set_vfns h (upd_first (vfn_is vo) (set_vf_ifaces l) (h_vfns h))) (S o), o)
      end
  end.

(** sourcehook_impl_chookidman.cpp 22-39: New; position = hook id - 1 *)
Fixpoint id_new (ids : list entry) (e : entry) (i : nat) : list entry * nat :=
  match ids with
  | [] => ([e], i)
  | x :: l => if en_free x then (e :: l, i)
              else let (l', k) := id_new l e (S i) in (x :: l', k)
  end.

(** 54-61: QueryHook *)
Definition query_hook (ids : list entry) (id : Z) : option entry :=
  if (id - 1 <? 0)%Z then None
  else match nth_error ids (Z.to_nat (id - 1)) with
       | Some e => if en_free e then None else Some e
       | None => None
       end.

Definition free_entry (e : entry) : entry :=
  Entry true (en_info e) (en_vfnptr e) (en_adj e) (en_plug e) (en_offs e) (en_nid e) (en_handler e) (en_post e).

Fixpoint upd_nth {A} (n : nat) (f : A -> A) (l : list A) : list A :=
  match l, n with
  | [], _ => []
  | x :: l', O => f x :: l'
  | x :: l', S n' => x :: upd_nth n' f l'
  end.

(** 41-52: Remove *)
Definition id_remove (ids : list entry) (id : Z) : list entry :=
  match query_hook ids id with
  | None => ids
  | Some _ => upd_nth (Z.to_nat (id - 1)) free_entry ids
  end.

(** 63-97: the three FindAllHooks; result: hook ids in increasing order *)
Fixpoint find_ids (p : entry -> bool) (ids : list entry) (i : Z) : list Z :=
  match ids with
  | [] => []
  | e :: l => if negb (en_free e) && p e then (i + 1)%Z :: find_ids p l (i + 1)
              else find_ids p l (i + 1)
  end.

(** 100-108: RemoveAll *)
Definition id_remove_all (ids : list entry) (ptr : Z) : list entry :=
  map (fun e => if negb (en_free e) && Z.eqb (en_vfnptr e) ptr then free_entry e else e) ids.

(** sourcehook.h 133-138: enum AddHookMode *)
Inductive addmode := ANormal | AVP | ADVP.

(** sourcehook.cpp 112-144: slot and adjusted interface pointer *)
Definition hook_target (h : hs) (mode : addmode) (ifp offs : Z) (i : pfinfo) : Z * Z :=
  let adj := (ifp + offs)%Z in
  let slot := (h_vt h (adj + pf_voffs i) + 8 * pf_vidx i)%Z in
  match mode with
  | ANormal => (slot, adj)
  | AVP => (slot, 0%Z)
  | ADVP => ((ifp + 8 * pf_vidx i)%Z, 0%Z)
  end.

(** sourcehook.cpp 102-175: AddHook.  Result: new state and hook id (0: not
    added).  [None]: the object is NULL. *)
Definition add_hook (h : hs) (plug : Z) (mode : addmode) (ifp offs pf handler : Z) (post : bool)
  : option (hs * Z) :=
  match pf_valid h pf with
  | None => Some (h, 0%Z)
  | Some info =>
      if (match mode with ADVP => false | _ => Z.eqb (ifp + offs) 0 end) then None else
      let (slot, adj) := hook_target h mode ifp offs info in
      let (h1, vo) := get_vfnptr h slot in
      let (h2, mo) := get_hookman h1 plug pf info in
      match add_hookman h2 vo mo with
      | None => None
      | Some h3 =>
          match get_iface h3 vo adj with
          | None => None
          | Some (h4, io) =>
              let nid := h_nxt h4 in
              let e := Entry false info slot adj plug offs nid handler post in
              let (ids', k) := id_new (h_ids h4) e 0 in
              let id := (Z.of_nat k + 1)%Z in
              let hk := Hook nid plug offs handler id false in
              let h5 := set_delegs (set_nxt (set_ids h4 ids') (S nid)) (nid :: h_delegs h4) in
              let h6 := set_vfns h5
                    (upd_first (vfn_is vo)
                       (fun v => set_vf_ifaces
                          (upd_first (fun i => if_obj i =? io)
                             (fun i => set_hooks post (hooks_of post i ++ [hk]) i) (vf_ifaces v)) v)
                       (h_vfns h5)) in
              Some (h6, id)
          end
      end
  end.

(** ISHDelegate::DeleteThis on the delegate of a hook *)
Definition delete_deleg (h : hs) (nid : nat) : option hs :=
  if memb nid (h_delegs h)
  then Some (emit (set_delegs h (del_first (Nat.eqb nid) (h_delegs h))) (ODelete nid))
  else None.

Fixpoint delete_delegs (h : hs) (l : list hook) : option hs :=
  match l with
  | [] => Some h
  | k :: l' => match delete_deleg h (hk_nid k) with
               | None => None
               | Some h' => delete_delegs h' l'
               end
  end.

(** sourcehook_impl_ciface.h 50-62: ~CIface for every iface of a list *)
Fixpoint destroy_ifaces (h : hs) (l : list iface) : option hs :=
  match l with
  | [] => Some h
  | i :: l' => match delete_delegs h (if_pre i ++ if_post i) with
               | None => None
               | Some h' => destroy_ifaces h' l'
               end
  end.

Definition thunk_free (h : hs) (t : nat) : option hs :=
  if memb t (h_thunks h)
  then Some (emit (set_thunks h (del_first (Nat.eqb t) (h_thunks h))) (OThunkFree t))
  else None.

(** ** Contexts *)
(** sourcehook_impl.h 222-238; [SJunk n]: a numeric value outside the enum *)
Inductive cstate := SBorn | SPre | SPreVP | SPost | SPostVP | SOrigCall | SDead | SIgnore
                  | SRecPre | SRecPreVP | SRecPost | SRecPostVP | SJunk (n : nat).

(** List<CHook>::iterator: NULL, a node, or the sentinel of a list *)
Inductive iter := INull | INode (nid : nat) | IEnd (io : nat) (post : bool).

(** pOrigRet / pOverrideRet: address of orig_ret (true) or override_ret
    (false) of a hook function activation *)
Inductive retptr := RP (fid : nat) (orig : bool).

(** sourcehook_impl.h 216-261: CHookContext.  [None] in a pointer field:
    not initialised (or NULL for [cx_iface]).  Uninitialised pointers are taken
    to be different from the addresses of live objects. *)
Record ctx := Ctx {
  cx_state : cstate; cx_iter : iter; cx_vfn : option nat; cx_iface : option nat;
  cx_frame : option nat;          (* pStatus, pPrevRes, pCurRes point into this activation *)
  cx_this : Z; cx_orig : option retptr; cx_over : option retptr;
  cx_ifp : option Z; cx_call_orig : bool; cx_task : option nat }.

Definition ctx0 : ctx := Ctx SDead INull None None None 0 None None None false None.

Definition cx_set_state (c : ctx) x := Ctx x (cx_iter c) (cx_vfn c) (cx_iface c) (cx_frame c) (cx_this c) (cx_orig c) (cx_over c) (cx_ifp c) (cx_call_orig c) (cx_task c).
Definition cx_set_iter (c : ctx) x := Ctx (cx_state c) x (cx_vfn c) (cx_iface c) (cx_frame c) (cx_this c) (cx_orig c) (cx_over c) (cx_ifp c) (cx_call_orig c) (cx_task c).
Definition cx_set_iface (c : ctx) x := Ctx (cx_state c) (cx_iter c) (cx_vfn c) x (cx_frame c) (cx_this c) (cx_orig c) (cx_over c) (cx_ifp c) (cx_call_orig c) (cx_task c).
Definition cx_set_ifp (c : ctx) x := Ctx (cx_state c) (cx_iter c) (cx_vfn c) (cx_iface c) (cx_frame c) (cx_this c) (cx_orig c) (cx_over c) x (cx_call_orig c) (cx_task c).
Definition cx_set_task (c : ctx) x := Ctx (cx_state c) (cx_iter c) (cx_vfn c) (cx_iface c) (cx_frame c) (cx_this c) (cx_orig c) (cx_over c) (cx_ifp c) (cx_call_orig c) x.

(** m_ContextStack: all slots ever used (bottom first) and the number in use.
    A slot index plays the role of the CHookContext pointer.  Slots above the
    top keep their contents (sh_stack.h 160-181). *)
Record cstack := Cs { cs_slots : list ctx; cs_depth : nat }.

(** [f] on every context in use *)
Fixpoint map_first {A} (n : nat) (f : A -> A) (l : list A) : list A :=
  match n, l with
  | S n', x :: l' => f x :: map_first n' f l'
  | _, _ => l
  end.
Definition cs_map (f : ctx -> ctx) (c : cstack) : cstack := Cs (map_first (cs_depth c) f (cs_slots c)) (cs_depth c).

(** cleanup tasks (CVfnPtrOrigThunkCleanup): live ones, with the trampoline *)
Definition tasks := list (nat * nat).

(** The part of the state that API functions on hooks work on. *)
Record core := Core { c_h : hs; c_cs : cstack; c_tasks : tasks }.

(** sourcehook_impl_cvfnptr.cpp 96-100: CleanupAndDeleteThis *)
Definition run_task (k : core) (t : nat) : option core :=
  match find (fun p => fst p =? t) (c_tasks k) with
  | None => None                                  (* already deleted *)
  | Some (_, th) =>
      match thunk_free (c_h k) th with
      | None => None
      | Some h => Some (Core h (c_cs k) (del_first (fun p => fst p =? t) (c_tasks k)))
      end
  end.

Definition opt_is (o : nat) (x : option nat) : bool := match x with Some y => y =? o | None => false end.

(** sourcehook.cpp 864-871: HookRemoved; [after] is [--nexthookiter] after the
    erasure: the node before the erased one, or the sentinel *)
Definition ctx_hook_removed (old : nat) (after : iter) (c : ctx) : ctx :=
  match cx_iter c with
  | INode n => if n =? old then cx_set_iter c after else c
  | _ => c
  end.
(** 873-877 *)
Definition ctx_iface_removed (io : nat) (c : ctx) : ctx :=
  if opt_is io (cx_iface c) then cx_set_iface c None else c.
(** 879-891 *)
Definition ctx_vfn_removed (vo : nat) (c : ctx) : ctx :=
  if opt_is vo (cx_vfn c) then cx_set_state c SDead else c.

(** The node before the one with hook id [id], else the sentinel. *)
Fixpoint iter_before (io : nat) (post : bool) (prev : iter) (id : Z) (l : list hook) : iter :=
  match l with
  | [] => prev
  | k :: l' => if hook_id_is id k then prev else iter_before io post (INode (hk_nid k)) id l'
  end.

(** sourcehook.cpp 284-301: first context in use (from the bottom) on the vfnptr *)
Fixpoint attach_task (n : nat) (vo t : nat) (l : list ctx) : option (list ctx) :=
  match n, l with
  | S n', c :: l' =>
      if opt_is vo (cx_vfn c) then Some (cx_set_task c (Some t) :: l')
      else match attach_task n' vo t l' with
           | None => None
           | Some r => Some (c :: r)
           end
  | _, _ => None
  end.

(** sourcehook.cpp 273-317: RevertAndRemoveVfnPtr, with ~CVfnPtr
    (sourcehook_impl_cvfnptr.cpp 25-29) and Revert (129-143; the module is
    assumed to be in memory). *)
Definition revert_and_remove (k : core) (v : vfn) : option core :=
  let k1 :=
    match vf_thunk v with
    | None => Some k
    | Some th =>
        let t := h_nxt (c_h k) in
        let h' := set_nxt (c_h k) (S t) in
        match attach_task (cs_depth (c_cs k)) (vf_obj v) t (cs_slots (c_cs k)) with
        | Some l => Some (Core h' (Cs l (cs_depth (c_cs k))) ((t, th) :: c_tasks k))
        | None => run_task (Core h' (c_cs k) ((t, th) :: c_tasks k)) t
        end
    end in
  match k1 with
  | None => None
  | Some k1 =>
      let h2 := patch (c_h k1) (vf_ptr v) (vf_orig v) in
      let h3 := match vf_mans v with
                | [] => Some h2
                | m :: _ => decr_ref h2 m (vf_obj v)
                end in
      match h3 with
      | None => None
      | Some h3 =>
          match destroy_ifaces h3 (vf_ifaces v) with
          | None => None
          | Some h4 =>
              Some (Core (set_vfns h4 (del_first (vfn_is (vf_obj v)) (h_vfns h4))) (c_cs k1) (c_tasks k1))
          end
      end
  end.

(** sourcehook.cpp 204-271: RemoveHookByID *)
Definition remove_by_id (k : core) (id : Z) : option (core * bool) :=
  let h := c_h k in
  match query_hook (h_ids h) id with
  | None => Some (k, false)
  | Some e =>
      match find (vfn_at (en_vfnptr e)) (h_vfns h) with
      | None => Some (k, false)
      | Some v =>
          match find (iface_at (en_adj e)) (vf_ifaces v) with
          | None => Some (k, false)
          | Some i =>
              match find (hook_id_is id) (hooks_of (en_post e) i) with
              | None => Some (k, false)
              | Some hk =>
                  match delete_deleg h (hk_nid hk) with
                  | None => None
                  | Some h1 =>
                      let after := iter_before (if_obj i) (en_post e) (IEnd (if_obj i) (en_post e)) id
                                               (hooks_of (en_post e) i) in
                      let i' := set_hooks (en_post e) (del_first (hook_id_is id) (hooks_of (en_post e) i)) i in
                      let cs1 := cs_map (ctx_hook_removed (hk_nid hk) after) (c_cs k) in
                      let fin (k' : core) := Some (Core (set_ids (c_h k') (id_remove (h_ids (c_h k')) id)) (c_cs k') (c_tasks k'), true) in
                      match if_pre i' ++ if_post i' with
                      | _ :: _ =>
                          let v' := set_vf_ifaces (upd_first (iface_at (en_adj e)) (fun _ => i') (vf_ifaces v)) v in
                          fin (Core (set_vfns h1 (upd_first (vfn_at (en_vfnptr e)) (fun _ => v') (h_vfns h1))) cs1 (c_tasks k))
                      | [] =>
                          let cs2 := cs_map (ctx_iface_removed (if_obj i)) cs1 in
                          let v' := set_vf_ifaces (del_first (iface_at (en_adj e)) (vf_ifaces v)) v in
                          let h2 := set_vfns h1 (upd_first (vfn_at (en_vfnptr e)) (fun _ => v') (h_vfns h1)) in
                          match vf_ifaces v' with
                          | _ :: _ => fin (Core h2 cs2 (c_tasks k))
                          | [] =>
                              let cs3 := cs_map (ctx_vfn_removed (vf_obj v)) cs2 in
                              match revert_and_remove (Core h2 cs3 (c_tasks k)) v' with
                              | None => None
                              | Some k' => fin k'
                              end
                          end
                      end
                  end
              end
          end
      end
  end.

Fixpoint remove_ids (k : core) (l : list Z) : option (core * bool) :=
  match l with
  | [] => Some (k, false)
  | id :: l' =>
      match remove_by_id k id with
      | None => None
      | Some (k1, b) =>
          match remove_ids k1 l' with
          | None => None
          | Some (k2, b2) => Some (k2, b || b2)
          end
      end
  end.

(** The test of FindAllHooks (sourcehook_impl_chookidman.cpp 69-74).  The
    comparisons are evaluated left to right; IsEqual is called on the stored
    delegate, which must be alive.  [None]: undefined behaviour. *)
Definition entry_matches (h : hs) (info : pfinfo) (adj plug offs handler : Z) (post : bool) (e : entry)
  : option bool :=
  if en_free e then Some false else
  match proto_eq (pf_proto (en_info e)) (pf_proto info) with
  | None => None
  | Some false => Some false
  | Some true =>
      if Z.eqb (pf_voffs (en_info e)) (pf_voffs info) && Z.eqb (pf_vidx (en_info e)) (pf_vidx info)
         && Z.eqb (en_adj e) adj && Z.eqb (en_plug e) plug && Z.eqb (en_offs e) offs
      then if memb (en_nid e) (h_delegs h)
           then Some (Z.eqb (en_handler e) handler && Bool.eqb (en_post e) post)
           else None
      else Some false
  end.

Fixpoint find_ids_opt (p : entry -> option bool) (ids : list entry) (i : Z) : option (list Z) :=
  match ids with
  | [] => Some []
  | e :: l =>
      match p e, find_ids_opt p l (i + 1) with
      | Some true, Some r => Some ((i + 1)%Z :: r)
      | Some false, Some r => Some r
      | _, _ => None
      end
  end.

(** sourcehook.cpp 177-202: RemoveHook.  An invalid temporary manager has a
    default prototype (version -1), which compares unequal to everything. *)
Definition remove_hook (k : core) (plug ifp offs pf handler : Z) (post : bool) : option (core * bool) :=
  match h_pfs (c_h k) pf with
  | None => Some (k, false)
  | Some info =>
      match find_ids_opt (entry_matches (c_h k) info (ifp + offs) plug offs handler post) (h_ids (c_h k)) 0 with
      | None => None
      | Some [] => Some (k, false)
      | Some l => remove_ids k l
      end
  end.

(** sourcehook_impl_cvfnptr.cpp 198-226: HookManRemoved.  Result false: remove
    the vfnptr. *)
Definition hookman_removed (h : hs) (v : vfn) (o : nat) : option (hs * vfn * bool) :=
  match get_man h o with
  | None => None
  | Some m =>
      if Z.eqb (pf_ver (mn_info m)) (-1) then Some (h, v, true)
      else if memb o (vf_mans v) then
        match vf_mans v with
        | [] => None
        | first :: rest =>
            if first =? o then
              match decr_ref h o (vf_obj v) with
              | None => None
              | Some h1 =>
                  let v' := set_vf_mans rest v in
                  let h2 := set_vfns h1 (upd_first (vfn_is (vf_obj v)) (set_vf_mans rest) (h_vfns h1)) in
                  match rest with
                  | [] => Some (h2, v', false)
                  | second :: _ =>
                      match incr_ref h2 second (vf_obj v) with
                      | None => None
                      | Some h3 =>
                          match get_man h3 second with
                          | None => None
                          | Some m2 => Some (patch h3 (vf_ptr v) (CHook (mn_pf m2)), v', true)
                          end
                      end
                  end
              end
            else
              let l := del_first (Nat.eqb o) (vf_mans v) in
              Some (set_vfns h (upd_first (vfn_is (vf_obj v)) (set_vf_mans l) (h_vfns h)), set_vf_mans l v, true)
        end
      else Some (h, v, true)
  end.

(** sourcehook.cpp 399-421: RemoveHookManager(iterator): the loop over the
    vfnptrs [l] (objects), then the erasure of the manager. *)
Fixpoint rm_hookman_loop (k : core) (o : nat) (l : list nat) : option core :=
  match l with
  | [] => Some k
  | vo :: l' =>
      match get_vfn (c_h k) vo with
      | None => None
      | Some v =>
          match hookman_removed (c_h k) v o with
          | None => None
          | Some (h1, _, true) => rm_hookman_loop (Core h1 (c_cs k) (c_tasks k)) o l'
          | Some (h1, v', false) =>
              let h2 := set_ids h1 (id_remove_all (h_ids h1) (vf_ptr v)) in
              match revert_and_remove (Core h2 (c_cs k) (c_tasks k)) v' with
              | None => None
              | Some k2 => rm_hookman_loop k2 o l'
              end
          end
      end
  end.

Definition remove_hookman (k : core) (o : nat) : option core :=
  match rm_hookman_loop k o (map vf_obj (h_vfns (c_h k))) with
  | None => None
  | Some k1 => Some (Core (set_mans (c_h k1) (del_first (man_is o) (h_mans (c_h k1)))) (c_cs k1) (c_tasks k1))
  end.

(** sourcehook.cpp 423-432: RemoveHookManager(plug, pubFunc) *)
Definition remove_hookman_pf (k : core) (plug pf : Z) : option core :=
  match find (man_key plug pf) (h_mans (c_h k)) with
  | None => Some k
  | Some m => remove_hookman k (mn_obj m)
  end.

(** sourcehook.cpp 375-382: the managers of a plugin; [l]: manager objects in
    list order *)
Fixpoint remove_hookmans (k : core) (plug : Z) (l : list nat) : option core :=
  match l with
  | [] => Some k
  | o :: l' =>
      match get_man (c_h k) o with
      | None => None
      | Some m =>
          if Z.eqb (mn_plug m) plug
          then match remove_hookman k o with
               | None => None
               | Some k1 => remove_hookmans k1 plug l'
               end
          else remove_hookmans k plug l'
      end
  end.

(** sourcehook.cpp 365-382: UnloadPlugin without the notification *)
Definition unload_hooks (k : core) (plug : Z) : option core :=
  match remove_ids k (find_ids (fun e => Z.eqb (en_plug e) plug) (h_ids (c_h k)) 0) with
  | None => None
  | Some (k1, _) => remove_hookmans k1 plug (map mn_obj (h_mans (c_h k1)))
  end.

(** sourcehook.cpp 651-658: CompleteShutdown *)
Definition complete_shutdown (k : core) : option core :=
  match remove_ids k (find_ids (fun _ => true) (h_ids (c_h k)) 0) with
  | None => None
  | Some (k1, _) => Some k1
  end.

(** sourcehook.cpp 690-717: SetHookPaused *)
Definition set_paused (h : hs) (id : Z) (p : bool) : hs * bool :=
  match query_hook (h_ids h) id with
  | None => (h, false)
  | Some e =>
      match find (vfn_at (en_vfnptr e)) (h_vfns h) with
      | None => (h, false)
      | Some v =>
          match find (iface_at (en_adj e)) (vf_ifaces v) with
          | None => (h, false)
          | Some i =>
              match find (hook_id_is id) (hooks_of (en_post e) i) with
              | None => (h, false)
              | Some _ =>
                  let pause k := Hook (hk_nid k) (hk_plug k) (hk_offs k) (hk_handler k) (hk_id k) p in
                  let l := upd_first (hook_id_is id) pause (hooks_of (en_post e) i) in
                  (set_vfns h
                     (upd_first (vfn_at (en_vfnptr e))
                        (fun v => set_vf_ifaces
                           (upd_first (iface_at (en_adj e)) (set_hooks (en_post e) l) (vf_ifaces v)) v)
                        (h_vfns h)), true)
              end
          end
      end
  end.

(** sourcehook.cpp 660-678: PausePlugin / UnpausePlugin *)
Fixpoint set_paused_list (h : hs) (l : list Z) (p : bool) : hs :=
  match l with
  | [] => h
  | id :: l' => set_paused_list (fst (set_paused h id p)) l' p
  end.
Definition pause_plugin (h : hs) (plug : Z) (p : bool) : hs :=
  set_paused_list h (find_ids (fun e => Z.eqb (en_plug e) plug) (h_ids h) 0) p.
