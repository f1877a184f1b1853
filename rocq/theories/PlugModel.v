(** Model of the plugin manager: core/metamod_plugins.cpp, and of the parts of
    core/metamod.cpp that work on its list (AddListener, UnregisterConVar/Command,
    MetaFactory, the synthetic factories).

    Plugin objects (CPlugin) live in a heap and are referred to by address.
    [None]: undefined behaviour - a freed object is used, code of a closed library
    is called, an uninitialised status is read, a NULL pointer is used.

    What plugins do is given from outside: whether the file exists, what the
    library exports, what each callback returns and which of the calls of
    Metamod it makes ([act]).  Callbacks do not call the plugin manager again
    (Load, Unload, ... inside a callback): not modelled. *)
From Coq Require Import List ZArith Bool Arith Ascii String.
From Verif Require Import ListModel StrModel.
Import ListNotations.
Local Open Scope list_scope.
Local Open Scope nat_scope.
Notation length := List.length.

(** Pl_Status (core/IPluginManager.h 54-61) *)
Inductive status := NotFound | Error | Refused | Paused | Running.
(** m_Status >= Pl_Paused *)
Definition loaded (s : status) : bool :=
  match s with Paused | Running => true | _ => false end.

(** A listener object: the library its code is in, and its name. *)
Definition listener := (nat * nat)%type.

(** CPlugin (core/metamod_plugins.h 81-98).  m_Source is never assigned and
    left out here (see [Query]).  m_Cvars and m_Cmds are treated alike by the code
    and are one list here.  [p_told]: the id the plugin was given in its Load
    callback (what g_PLID holds), [p_ver]: the answer of GetApiVersion. *)
Record plugin := mkP {
  p_id : Z;
  p_file : str;
  p_status : option status;          (* None: not initialised *)
  p_api : option nat;
  p_ver : Z;
  p_lib : option nat;
  p_ufn : option nat;                (* m_UnloadFn: the library it is in *)
  p_told : option Z;
  p_events : list listener;
  p_cons : list nat
}.

(** What the log records: every call into a plugin, with its result. *)
Inductive kind := OnLoad | OnUnload | OnPause | OnUnpause.
Inductive call :=
| CLoad (a : nat) (id : Z) (late ok : bool)
| CAllLoaded (a : nat)
| CPause (a : nat) (ok : bool)
| CUnpause (a : nat) (ok : bool)
| CUnload (a : nat) (ok force : bool)
| CUnloadFn (a : nat)
| CNote (l : listener) (k : kind) (id : Z)
| CUnlink (l : listener) (id : Z) (c : nat).

(** A hook of SourceHook: the id of the plugin it was registered for, and (only
    for the statements) the object that registered it. *)
Record hook := mkH { h_plug : Z; h_name : nat; h_paused : bool; h_owner : nat }.

(** PendingUnload with its Unloader (sourcehook_impl.h 290-319,
    metamod_plugins.cpp 390-419) *)
Record pending := mkPend { u_addr : nat; u_destroy : bool; u_deactivated : bool }.

Record st := mkS {
  heap : list (option plugin);       (* index: address; None: freed *)
  plugins : list nat;                (* m_Plugins *)
  last : Z;                          (* m_LastId *)
  allloaded : bool;                  (* m_AllLoaded *)
  hooks : list hook;                 (* in SourceHook *)
  pend : list pending;               (* m_PendingUnloads *)
  depth : nat;                       (* m_ContextStack.size () *)
  libs : list nat;                   (* open libraries *)
  nlib : nat;                        (* the next library handle *)
  log : list call
}.

(** CPluginManager::CPluginManager (core/metamod_plugins.cpp 70-74) *)
Definition init : st := mkS [] [] 1 false [] [] 0 [] 0 [].

Definition set_heap h s := mkS h (plugins s) (last s) (allloaded s) (hooks s) (pend s) (depth s) (libs s) (nlib s) (log s).
Definition set_plugins l s := mkS (heap s) l (last s) (allloaded s) (hooks s) (pend s) (depth s) (libs s) (nlib s) (log s).
Definition set_last z s := mkS (heap s) (plugins s) z (allloaded s) (hooks s) (pend s) (depth s) (libs s) (nlib s) (log s).
Definition set_allloaded b s := mkS (heap s) (plugins s) (last s) b (hooks s) (pend s) (depth s) (libs s) (nlib s) (log s).
Definition set_hooks l s := mkS (heap s) (plugins s) (last s) (allloaded s) l (pend s) (depth s) (libs s) (nlib s) (log s).
Definition set_pend l s := mkS (heap s) (plugins s) (last s) (allloaded s) (hooks s) l (depth s) (libs s) (nlib s) (log s).
Definition set_depth n s := mkS (heap s) (plugins s) (last s) (allloaded s) (hooks s) (pend s) n (libs s) (nlib s) (log s).
Definition set_libs l s := mkS (heap s) (plugins s) (last s) (allloaded s) (hooks s) (pend s) (depth s) l (nlib s) (log s).
Definition set_nlib n s := mkS (heap s) (plugins s) (last s) (allloaded s) (hooks s) (pend s) (depth s) (libs s) n (log s).
Definition set_log l s := mkS (heap s) (plugins s) (last s) (allloaded s) (hooks s) (pend s) (depth s) (libs s) (nlib s) l.
Definition say c s := set_log (log s ++ c) s.

Definition with_id z p := mkP z (p_file p) (p_status p) (p_api p) (p_ver p) (p_lib p) (p_ufn p) (p_told p) (p_events p) (p_cons p).
Definition with_status x p := mkP (p_id p) (p_file p) (Some x) (p_api p) (p_ver p) (p_lib p) (p_ufn p) (p_told p) (p_events p) (p_cons p).
Definition with_lib api ver lib ufn p := mkP (p_id p) (p_file p) (p_status p) api ver lib ufn (p_told p) (p_events p) (p_cons p).
Definition with_told x p := mkP (p_id p) (p_file p) (p_status p) (p_api p) (p_ver p) (p_lib p) (p_ufn p) x (p_events p) (p_cons p).
Definition with_events l p := mkP (p_id p) (p_file p) (p_status p) (p_api p) (p_ver p) (p_lib p) (p_ufn p) (p_told p) l (p_cons p).
Definition with_cons l p := mkP (p_id p) (p_file p) (p_status p) (p_api p) (p_ver p) (p_lib p) (p_ufn p) (p_told p) (p_events p) l.

(** *pl; [None]: freed *)
Definition getp (s : st) (a : nat) : option plugin :=
  match nth_error (heap s) a with Some (Some p) => Some p | _ => None end.
Fixpoint setnth {A} (l : list A) (n : nat) (x : A) : list A :=
  match l, n with
  | [], _ => []
  | _ :: l, 0 => x :: l
  | y :: l, S n => y :: setnth l n x
  end.
Definition setp (s : st) (a : nat) (p : option plugin) : st := set_heap (setnth (heap s) a p) s.

(** Code of a library may be called. *)
Definition is_open (s : st) (h : nat) : bool := existsb (Nat.eqb h) (libs s).
(** pl->m_API->...: the interface and its library are there *)
Definition callable (s : st) (p : plugin) : bool :=
  match p_api p, p_lib p with Some _, Some h => is_open s h | _, _ => false end.

(** FindById (core/metamod_plugins.cpp 192-205) *)
Fixpoint find_id (s : st) (l : list nat) (id : Z) : option (option nat) :=
  match l with
  | [] => Some None
  | a :: l => do p <- getp s a ; if (p_id p =? id)%Z then Some (Some a) else find_id s l id
  end.
(** FindByAPI (338-357); the argument is not NULL *)
Definition api_is (p : plugin) (api : nat) : bool :=
  match p_api p with Some x => x =? api | None => false end.
Fixpoint find_api (s : st) (l : list nat) (api : nat) : option (option nat) :=
  match l with
  | [] => Some None
  | a :: l => do p <- getp s a ; if api_is p api then Some (Some a) else find_api s l api
  end.

(** All listeners of the plugins in the list that [sel] selects, in the order in
    which the loops of ITER_PLEVENT (core/metamod_plugins.cpp 42-54) and of
    UnregisterConVar (core/metamod.cpp 1008-1045) call them. *)
Fixpoint gather (s : st) (sel : plugin -> option bool) (l : list nat) : option (list listener) :=
  match l with
  | [] => Some []
  | a :: l =>
      do p <- getp s a ;
      do b <- sel p ;
      do r <- gather s sel l ;
      Some ((if b then p_events p else []) ++ r)
  end.
Definition call_all (s : st) (sel : plugin -> option bool) (mk : listener -> call) : option st :=
  do ls <- gather s sel (plugins s) ;
  if forallb (fun l => is_open s (fst l)) ls then Some (say (map mk ls) s) else None.

(** ITER_PLEVENT (evn, plid) *)
Definition iter_plevent (s : st) (k : kind) (plid : Z) : option st :=
  call_all s (fun p => Some (negb (p_id p =? plid)%Z)) (fun l => CNote l k plid).

(** MetamodSource::UnregisterConVar / UnregisterConCommand (PluginId, ...)
    (core/metamod.cpp 964-1045) *)
Definition unregister (s : st) (id : Z) (c : nat) : option st :=
  call_all s (fun p => do x <- p_status p ;
                       if negb (loaded x) then Some false
                       else if callable s p then Some (negb (p_ver p <? 12)%Z) else None)
           (fun l => CUnlink l id c).
(** UnregAllConCmds (core/metamod_plugins.cpp 852-866) *)
Fixpoint unreg_list (s : st) (id : Z) (cs : list nat) : option st :=
  match cs with
  | [] => Some s
  | c :: cs => do s <- unregister s id c ; unreg_list s id cs
  end.
Definition unreg_all (s : st) (a : nat) : option st :=
  do p <- getp s a ;
  do s <- unreg_list s (p_id p) (p_cons p) ;
  do p <- getp s a ;
  Some (setp s a (Some (with_cons [] p))).

(** What the code of a plugin may do inside a callback or while it runs. *)
Inductive act :=
| AHook (h : nat)              (* SH_ADD_HOOK: AddHook with g_PLID *)
| AUnhook (h : nat)            (* SH_REMOVE_HOOK *)
| AListen (l : nat)            (* ISmmAPI::AddListener (metamod.cpp 898-903) *)
| AReg (c : nat)               (* RegisterConVar / RegisterConCommand (936-946) *)
| AUnreg (c : nat).            (* UnregisterConVar / UnregisterConCommand (948-962) *)

Fixpoint remove_first (c : nat) (l : list nat) : list nat :=
  match l with [] => [] | x :: l => if x =? c then l else x :: remove_first c l end.

Definition run_act (a : nat) (s : st) (x : act) : option st :=
  do p <- getp s a ;
  do api <- p_api p ;
  do lib <- p_lib p ;
  let told := match p_told p with Some t => t | None => 0%Z end in
  match x with
  | AHook h => Some (set_hooks (hooks s ++ [mkH told h false a]) s)
  | AUnhook h => Some (set_hooks (filter (fun k => negb ((h_owner k =? a) && (h_name k =? h))) (hooks s)) s)
  | AListen l =>
      do b <- find_api s (plugins s) api ;
      do b <- b ;
      do q <- getp s b ;
      Some (setp s b (Some (with_events (p_events q ++ [(lib, l)]) q)))
  | AReg c =>
      do b <- find_api s (plugins s) api ;
      match b with
      | None => Some s
      | Some b => do q <- getp s b ; Some (setp s b (Some (with_cons (p_cons q ++ [c]) q)))
      end
  | AUnreg c =>
      do b <- find_api s (plugins s) api ;
      match b with
      | None => unregister s 0 c
      | Some b =>
          do q <- getp s b ;
          unregister (setp s b (Some (with_cons (remove_first c (p_cons q)) q))) (p_id q) c
      end
  end.
Fixpoint run_acts (a : nat) (s : st) (l : list act) : option st :=
  match l with [] => Some s | x :: l => do s <- run_act a s x ; run_acts a s l end.

(** A callback: what it does, and its result. *)
Definition cb := (list act * bool)%type.

(** Calling pl->m_API->...: [c] is logged, then the plugin acts. *)
Definition call_plugin (s : st) (a : nat) (c : call) (acts : list act) : option st :=
  do p <- getp s a ;
  if callable s p then run_acts a (say [c] s) acts else None.

(** Unloader::ReadyToUnload (core/metamod_plugins.cpp 399-418) *)
Definition ready (s : st) (a : nat) (destroy : bool) : option st :=
  do p <- getp s a ;
  do s <- match p_ufn p with
          | Some h => if is_open s h then Some (say [CUnloadFn a] s) else None
          | None => Some s
          end ;
  do s <- match p_lib p with
          | Some h => if is_open s h then Some (set_libs (filter (fun x => negb (x =? h)) (libs s)) s) else None
          | None => Some s
          end ;
  if destroy then Some (setp s a None)
  else Some (setp s a (Some (with_lib None (p_ver p) None (p_ufn p) p))).

(** CSourceHookImpl::UnloadPlugin (sourcehook.cpp 365-397): the hooks registered
    for [plug] go; the listener is told now, or later when a hook is running. *)
Definition sh_unload (s : st) (plug : Z) (a : nat) (destroy : bool) : option st :=
  let s := set_hooks (filter (fun k => negb (h_plug k =? plug)%Z) (hooks s)) s in
  if depth s =? 0 then ready s a destroy
  else Some (set_pend (pend s ++ [mkPend a destroy false]) s).
(** PausePlugin, UnpausePlugin (660-676) *)
Definition sh_pause (b : bool) (s : st) (plug : Z) : st :=
  set_hooks (map (fun k => if (h_plug k =? plug)%Z then mkH (h_plug k) (h_name k) b (h_owner k) else k) (hooks s)) s.
(** ResolvePendingUnloads (606-628) *)
Fixpoint resolve (force : bool) (s : st) (l : list pending) : option (st * list pending) :=
  match l with
  | [] => Some (s, [])
  | u :: l =>
      if negb force && negb (u_deactivated u)
      then do r <- resolve force s l ;
           Some (fst r, mkPend (u_addr u) (u_destroy u) true :: snd r)
      else do s <- ready s (u_addr u) (u_destroy u) ; resolve force s l
  end.
Definition resolve_pending (force : bool) (s : st) : option st :=
  do r <- resolve force s (pend s) ; Some (set_pend (snd r) (fst r)).

(** What happens when a file is loaded: the answers of the system and of the
    library (core/metamod_plugins.cpp 435-599). *)
Record loadinfo := mkLI {
  li_exists : bool;             (* fopen *)
  li_dl : bool;                 (* dlmount *)
  li_fnload : bool;             (* dlsym "CreateInterface_MMS" *)
  li_api1 : option nat;         (* its answer (the last of the attempts 503-517) *)
  li_ufn : bool;                (* dlsym "UnloadInterface_MMS" *)
  li_pfn : bool;                (* dlsym "CreateInterface" *)
  li_api2 : option nat;         (* its answer *)
  li_ver : Z;                   (* GetApiVersion *)
  li_load : cb;                 (* Load *)
  li_all : list act             (* AllPluginsLoaded *)
}.

(** ke::EndsWith (file, ".so") *)
Definition so_ext : str := list_ascii_of_string ".so".
Definition ends_with (s e : str) : bool :=
  (length e <=? length s) && str_eqb (skipn (length s - length e) s) e.

Definition PLAPI_MIN_VERSION := 14%Z.
Definition METAMOD_PLAPI_VERSION := 17%Z.

(** _Load (core/metamod_plugins.cpp 421-609): the part for a library that could be
    opened (464-598) *)
Definition load_lib (s : st) (a : nat) (li : loadinfo) : option st :=
  let h := nlib s in
  let s := set_nlib (S h) (set_libs (libs s ++ [h]) s) in
  let api1 := if li_fnload li then li_api1 li else None in
  let ufn := if li_fnload li && li_ufn li then Some h else None in
  let api := match api1 with
             | Some _ => api1
             | None => if li_pfn li then li_api2 li else None
             end in
  do p <- getp s a ;
  let p := with_lib api (li_ver li) (Some h) ufn p in
  match api with
  | None => Some (setp s a (Some (with_status Error p)))
  | Some _ =>
      if (li_ver li <? PLAPI_MIN_VERSION)%Z || (METAMOD_PLAPI_VERSION <? li_ver li)%Z
      then Some (setp s a (Some (with_status Error p)))
      else
        let ok := snd (li_load li) in
        let s := setp s a (Some (with_told (Some (p_id p)) p)) in
        do s <- call_plugin s a (CLoad a (p_id p) (allloaded s) ok) (fst (li_load li)) ;
        do p <- getp s a ;
        if ok
        then let s := setp s a (Some (with_status Running p)) in
             if allloaded s then call_plugin s a (CAllLoaded a) (li_all li) else Some s
        else Some (setp s a (Some (with_status Refused p)))
  end.

Definition _Load (s : st) (file : str) (li : loadinfo) : option (st * nat) :=
  let a := length (heap s) in
  let p := mkP (last s) file None None 0 None None None [] [] in
  let s := set_last (last s + 1) (set_plugins (plugins s ++ [a]) (set_heap (heap s ++ [Some p]) s)) in
  do s <- (if ends_with file so_ext && li_exists li
           then if li_dl li then load_lib s a li
                else Some (setp s a (Some (with_status Error p)))
           else Some (setp s a (Some (with_status NotFound p)))) ;
  do p <- getp s a ;
  do x <- p_status p ;
  if (match p_lib p with Some _ => true | None => false end) && negb (loaded x)     (* 601-606 *)
  then do s <- unreg_all (setp s a (Some (with_events [] p))) a ;
       do s <- sh_unload s (p_id p) a false ;
       Some (s, a)
  else Some (s, a).

(** m_Plugins.erase of the first plugin with the id *)
Fixpoint erase_id (s : st) (l : list nat) (id : Z) : option (list nat) :=
  match l with
  | [] => Some []
  | a :: l => do p <- getp s a ; if (p_id p =? id)%Z then Some l
              else do r <- erase_id s l id ; Some (a :: r)
  end.

(** _Unload (core/metamod_plugins.cpp 611-658) *)
Definition _Unload (s : st) (a : nat) (force : bool) (c : cb) : option (st * bool) :=
  do p <- getp s a ;
  match p_api p, p_lib p with
  | Some _, Some _ =>
      do s <- call_plugin s a (CUnload a (snd c) force) (fst c) ;
      if snd c || force then
        do p <- getp s a ;
        do s <- unreg_all (setp s a (Some (with_events [] p))) a ;
        do l <- erase_id s (plugins s) (p_id p) ;
        do s <- sh_unload (set_plugins l s) (p_id p) a true ;
        Some (s, true)
      else Some (s, false)
  | _, _ =>
      do l <- erase_id s (plugins s) (p_id p) ;
      Some (setp (set_plugins l s) a None, true)
  end.

(** _Pause (660-686), _Unpause (688-714) *)
Definition _Pause (s : st) (a : nat) (c : cb) : option (st * bool) :=
  do p <- getp s a ;
  do x <- p_status p ;
  match x, p_api p with
  | Running, Some _ =>
      do s <- call_plugin s a (CPause a (snd c)) (fst c) ;
      if snd c then
        do p <- getp s a ;
        Some (setp (sh_pause true s (p_id p)) a (Some (with_status Paused p)), true)
      else Some (s, false)
  | _, _ => Some (s, false)
  end.
Definition _Unpause (s : st) (a : nat) (c : cb) : option (st * bool) :=
  do p <- getp s a ;
  do x <- p_status p ;
  match x, p_api p with
  | Paused, Some _ =>
      do s <- call_plugin s a (CUnpause a (snd c)) (fst c) ;
      if snd c then
        do p <- getp s a ;
        Some (setp (sh_pause false s (p_id p)) a (Some (with_status Running p)), true)
      else Some (s, false)
  | _, _ => Some (s, false)
  end.

(** The loop of Load (156-178): the list afterwards, [already], and the id of a
    plugin that is loaded from this file. *)
Fixpoint load_scan (s : st) (file : str) (l : list nat) : option (list nat * bool * option Z) :=
  match l with
  | [] => Some ([], false, None)
  | a :: l =>
      do p <- getp s a ;
      do same <- UTIL_PathCmp file (p_file p) ;
      if same then
        do x <- p_status p ;
        if loaded x then Some (a :: l, true, Some (p_id p))
        else do r <- load_scan s file l ;
             let '(l', _, e) := r in Some (l', true, e)
      else do r <- load_scan s file l ;
           let '(l', al, e) := r in Some (a :: l', al, e)
  end.

(** Load (154-190): (id, already) *)
Definition Load (s : st) (file : str) (li : loadinfo) : option (st * (Z * bool)) :=
  do r <- load_scan s file (plugins s) ;
  let '(l, already, existing) := r in
  let s := set_plugins l s in
  match existing with
  | Some id => Some (s, (id, already))
  | None =>
      do r <- _Load s file li ;
      let '(s, a) := r in
      do p <- getp s a ;
      do s <- iter_plevent s OnLoad (p_id p) ;
      Some (s, (p_id p, already))
  end.

(** Pause (229-247), Unpause (249-267), Unload (269-287) *)
Definition Pause (s : st) (id : Z) (c : cb) : option (st * bool) :=
  do a <- find_id s (plugins s) id ;
  match a with
  | None => Some (s, false)
  | Some a =>
      do r <- _Pause s a c ;
      let '(s, b) := r in
      if b then do p <- getp s a ; do s <- iter_plevent s OnPause (p_id p) ; Some (s, true)
      else Some (s, false)
  end.
Definition Unpause (s : st) (id : Z) (c : cb) : option (st * bool) :=
  do a <- find_id s (plugins s) id ;
  match a with
  | None => Some (s, false)
  | Some a =>
      do r <- _Unpause s a c ;
      let '(s, b) := r in
      if b then do p <- getp s a ; do s <- iter_plevent s OnUnpause (p_id p) ; Some (s, true)
      else Some (s, false)
  end.
Definition Unload (s : st) (id : Z) (force : bool) (c : cb) : option (st * bool) :=
  do a <- find_id s (plugins s) id ;
  match a with
  | None => Some (s, false)
  | Some a =>
      do p <- getp s a ;
      let old_id := p_id p in
      do r <- _Unload s a force c ;
      let '(s, b) := r in
      if b then do s <- iter_plevent s OnUnload old_id ; Some (s, true)
      else Some (s, false)
  end.

(** Retry (289-336); [c]: the answer of the Unload callback that may be called *)
Definition Retry (s : st) (id : Z) (li : loadinfo) (c : cb) : option (st * bool) :=
  do a <- find_id s (plugins s) id ;
  match a with
  | None => Some (s, false)
  | Some a =>
      do p <- getp s a ;
      do x <- p_status p ;
      if loaded x then Some (s, false)
      else
        do r <- _Load s (p_file p) li ;
        let '(s, b) := r in
        do q <- getp s b ;
        do y <- p_status q ;
        if loaded y then
          do r <- _Unload s a true c ;
          let '(s, _) := r in
          do q <- getp s b ;
          Some (set_last (last s - 1) (setp s b (Some (with_id id q))), true)
        else
          do r <- _Unload s b true c ;
          let '(s, _) := r in
          Some (set_last (last s - 1) s, false)
  end.

(** UnloadAll (716-732); [cs a]: the answer of the Unload callback of the plugin
    at address [a].  [Some None]: not finished after [fuel] rounds. *)
Fixpoint UnloadAll (fuel : nat) (s : st) (cs : nat -> cb) : option (option (st * bool)) :=
  match plugins s with
  | [] => Some (Some (s, true))
  | a :: _ =>
      match fuel with
      | 0 => Some None
      | S f =>
          do r <- _Unload s a true (cs a) ;
          let '(s, b) := r in
          do r <- UnloadAll f s cs ;
          match r with
          | None => Some None
          | Some (s, b') => Some (Some (s, b && b'))
          end
      end
  end.

(** SetAllLoaded (207-227) *)
Fixpoint all_loop (s : st) (l : list nat) (cs : nat -> list act) : option st :=
  match l with
  | [] => Some s
  | a :: l =>
      do p <- getp s a ;
      do x <- p_status p ;
      match x, p_api p with
      | Running, Some _ => do s <- call_plugin s a (CAllLoaded a) (cs a) ; all_loop s l cs
      | _, _ => all_loop s l cs
      end
  end.
Definition SetAllLoaded (s : st) (cs : nat -> list act) : option st :=
  if allloaded s then Some s
  else all_loop (set_allloaded true s) (plugins s) cs.

(** Query (734-759): file, status, source.  m_Source is 0 from the constructor
    (149) and no code assigns it. *)
Definition Query (s : st) (id : Z) : option (option (str * status * Z)) :=
  do a <- find_id s (plugins s) id ;
  match a with
  | None => Some None
  | Some a => do p <- getp s a ; do x <- p_status p ; Some (Some (p_file p, x, 0%Z))
  end.

(** GetStatusText (364-388); [q]: the answer of QueryRunning *)
Definition GetStatusText (p : plugin) (q : bool) : option string :=
  do x <- p_status p ;
  match x with
  | NotFound => Some "NOFILE"%string
  | Error => Some "ERROR"%string
  | Refused => Some "FAILED"%string
  | Paused => Some "PAUSED"%string
  | Running => match p_api p with
               | Some _ => if q then Some "STOPPED"%string else Some "RUNNING"%string
               | None => Some "RUNNING"%string
               end
  end.

(** Programs *)
Inductive op :=
| OLoad (file : str) (source : Z) (li : loadinfo)
| OUnload (id : Z) (force : bool) (c : cb)
| OPause (id : Z) (c : cb)
| OUnpause (id : Z) (c : cb)
| ORetry (id : Z) (li : loadinfo) (c : cb)
| OUnloadAll (cs : nat -> cb)
| OSetAllLoaded (cs : nat -> list act)
| OAct (a : nat) (acts : list act)     (* a loaded plugin does something *)
| OEnter                               (* a hooked function is called *)
| OLeave                               (* and returns (EndContext, 630-641) *)
| OResolve.                            (* ResolvePendingUnloads (true): "meta load" *)

Inductive res :=
| RLoad (id : Z) (already : bool)
| RBool (b : bool)
| RNone.

Definition step (s : st) (o : op) : option (st * res) :=
  match o with
  | OLoad file _ li => do r <- Load s file li ; Some (fst r, RLoad (fst (snd r)) (snd (snd r)))
  | OUnload id force c => do r <- Unload s id force c ; Some (fst r, RBool (snd r))
  | OPause id c => do r <- Pause s id c ; Some (fst r, RBool (snd r))
  | OUnpause id c => do r <- Unpause s id c ; Some (fst r, RBool (snd r))
  | ORetry id li c => do r <- Retry s id li c ; Some (fst r, RBool (snd r))
  | OUnloadAll cs =>
      do r <- UnloadAll (length (plugins s)) s cs ;
      do r <- r ; Some (fst r, RBool (snd r))
  | OSetAllLoaded cs => do s <- SetAllLoaded s cs ; Some (s, RNone)
  | OAct a acts =>
      (* only plugins in the list that are loaded have code running *)
      if existsb (Nat.eqb a) (plugins s) then
        do p <- getp s a ;
        do x <- p_status p ;
        if loaded x then do s <- run_acts a s acts ; Some (s, RNone) else Some (s, RNone)
      else Some (s, RNone)
  | OEnter => Some (set_depth (S (depth s)) s, RNone)
  | OLeave =>
      match depth s with
      | 0 => Some (s, RNone)
      | S n =>
          let s := set_depth n s in
          match n with
          | 0 => do s <- resolve_pending false s ; Some (s, RNone)
          | _ => Some (s, RNone)
          end
      end
  | OResolve => do s <- resolve_pending true s ; Some (s, RNone)
  end.

Fixpoint run (s : st) (l : list op) : option (st * list res) :=
  match l with
  | [] => Some (s, [])
  | o :: l => do r <- step s o ;
              do r' <- run (fst r) l ;
              Some (fst r', snd r :: snd r')
  end.

(** ** MetaFactory and the synthetic factories (core/metamod.cpp 100-120,
    821-896): [ask l iface] is the answer of a listener, with what it stored in
    subret. *)
Section Factory.
Variable ask : listener -> str -> option nat * Z.
Definition META_IFACE_OK := 0%Z.
Definition META_IFACE_FAILED := 1%Z.
Fixpoint ask_events (id : Z) (ls : list listener) (iface : str) : option (nat * Z * Z) :=
  match ls with
  | [] => None
  | l :: ls => match ask l iface with
               | (Some v, r) => Some (v, r, id)
               | (None, _) => ask_events id ls iface
               end
  end.
Fixpoint ask_plugins (s : st) (l : list nat) (iface : str) : option (option (nat * Z * Z)) :=
  match l with
  | [] => Some None
  | a :: l => do p <- getp s a ;
              match ask_events (p_id p) (p_events p) iface with
              | Some x => Some (Some x)
              | None => ask_plugins s l iface
              end
  end.
(** [amd64]: the third name is only known in builds for other machines (847-858) *)
Variable amd64 : bool.
Definition builtin : list str :=
  map list_ascii_of_string (["ISourceHook"; "IPluginManager"]%string ++ (if amd64 then [] else ["IHookManagerAutoGen"%string])).
(** value (0: NULL; the built-in objects are numbered 1-3), ret, id *)
Fixpoint index_of (x : str) (l : list str) (n : nat) : option nat :=
  match l with [] => None | y :: l => if str_eqb x y then Some n else index_of x l (S n) end.
Definition MetaFactory (s : st) (iface : str) : option (option nat * Z * Z) :=
  match index_of iface builtin 1 with
  | Some n => Some (Some n, META_IFACE_OK, 0%Z)
  | None =>
      do r <- ask_plugins s (plugins s) iface ;
      match r with
      | Some (v, r, id) => Some (Some v, r, id)
      | None => Some (None, META_IFACE_FAILED, 0%Z)
      end
  end.
(** EngineFactory, PhysicsFactory, FileSystemFactory, ServerFactory (IFACE_MACRO) *)
Definition SynFactory (orig : str -> option nat * Z) (s : st) (iface : str) : option (option nat * Z) :=
  do r <- ask_plugins s (plugins s) iface ;
  match r with
  | Some (v, r, _) => Some (Some v, r)
  | None => Some (orig iface)
  end.
End Factory.

(** ** Aliases (LookupAlias, SetAlias: core/metamod_plugins.cpp 88-103, 115-147): m_Aliases *)
Definition aliases := list (str * str).
Fixpoint LookupAlias (l : aliases) (alias : str) : option str :=
  match l with
  | [] => None
  | (a, v) :: l => if str_eqb a alias then Some v else LookupAlias l alias
  end.
Fixpoint set_in (l : aliases) (alias value : str) : option aliases :=
  match l with
  | [] => None
  | (a, v) :: l =>
      if str_eqb a alias
      then Some (match value with [] => l | _ => (a, value) :: l end)
      else do l' <- set_in l alias value ; Some ((a, v) :: l')
  end.
Definition SetAlias (l : aliases) (alias value : str) : aliases :=
  match set_in l alias value with
  | Some l' => l'
  | None => match value with [] => l | _ => l ++ [(alias, value)] end
  end.
