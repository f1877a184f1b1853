(** Model of the loader standing in for the game library (Source 2, 64 bits).
    Sources: /repo/loader/gamedll.cpp 220-230 (mm_FreeCachedLibraries), 275-352
    (ISource2ServerConfig: Connect, Disconnect, AllowDedicatedServers), 354-459
    (ISource2Server::Init), 608-760 (mm_PatchDllInit, mm_PatchDllShutdown,
    mm_PatchAllowDedicated, mm_PatchConnect), 762-899 (mm_GameDllRequest);
    /repo/loader/loader.cpp 172-204 (CreateInterface); /repo/core/gamedll_bridge.cpp 62-77
    (DLLInit_Post: the slot of Disconnect); /repo/core/sourcehook/sh_memory.h 43-44, 197-200
    (SetMemAccess).
    Release build (assertions are not checked).
    Simplified: the handle of a library is the index of its path; the paths name different
    libraries; a library which is loaded anew has its tables as at first; what the core, the
    plugins and the game do to the tables and to the protection of pages while they run is
    an arbitrary function; mprotect succeeds; pages have 4096 bytes; no server plugin is
    loaded (vsp_bridge is NULL); names "ServerGameDLL..." are in DllModel.v; which of the
    engine's kinds the core is loaded for is in EngModel.v. *)
From Coq Require Import List Bool Arith ZArith Ascii String.
From Verif Require Import StrModel ConsModel.
Import ListNotations.
Local Open Scope list_scope.
Local Open Scope nat_scope.
Notation length := List.length.
Local Notation "'do' x <- a ; b" := (match a with Some x => b | None => None end)
  (at level 200, x pattern, a at level 100, b at level 200).

(** ** Which request is which (766-885) *)
Fixpoint strncmp0 (p s : str) : bool :=           (* strncmp (s, p, strlen (p)) == 0 *)
  match p, s with
  | [], _ => true
  | c :: p, d :: s => Ascii.eqb c d && strncmp0 p s
  | _ :: _, [] => false
  end.
Inductive kind := KRefused | KConfig | KServer | KSource1 | KOther.
Definition classify (dedicated insecure : bool) (name : str) : kind :=
  if strncmp0 (w_ "Source2Server") name && negb dedicated && negb insecure then KRefused
  else if strncmp0 (w_ "Source2ServerConfig") name then KConfig
  else if strncmp0 (w_ "Source2Server") name && negb (atoi (skipn 13 name) =? 0)%Z then KServer
  else if strncmp0 (w_ "ServerGameDLL") name then KSource1
  else KOther.

(** ** Memory *)
(** entries of tables: what slot [i] of the table of the first ([Conf]) or the second
    ([Serv]) interface of library [h] held at first, the loader's functions, NULL, code of
    anybody else *)
Inductive addr := Conf (h i : nat) | Serv (h i : nat) | TConnect | TDisconnect | TAllow | TInit | Null | Other (n : nat).
Definition table := nat -> addr.
Definition set_slot (t : table) (i : nat) (a : addr) : table := fun j => if j =? i then a else t j.

(** the two tables of one library and the pages which may be written *)
Record world := W { tc : table; ts : table; wr : Z -> bool }.
(** where the tables of a library are *)
Record layout := Lay { a_conf : nat -> Z; a_serv : nat -> Z }.

Definition slot (base : Z) (i : nat) : Z := (base + 8 * Z.of_nat i)%Z.
Definition page (a : Z) : Z := (a / 4096)%Z.
Definition may_write (w : Z -> bool) (a : Z) : bool := w (page a) && w (page (a + 7)).
(** SetMemAccess of eight bytes: mprotect from the start of the first page to the last byte *)
Definition protect_rw (w : Z -> bool) (a : Z) : Z -> bool :=
  fun p => ((page a <=? p)%Z && (p <=? page (a + 7))%Z) || w p.

(** ** State *)
Inductive call :=
| CallConnect (a : addr) (f : Z)        (* the game's Connect, with the factory *)
| CallAllow (a : addr)                  (* the game's AllowDedicatedServers *)
| CallInit (a : addr)                   (* the game's Init *)
| CallDisconnect (a : addr)             (* the game's Disconnect *)
| CorePre (f : option Z)                (* the core's DLLInit_Pre with the saved factories *)
| CorePost | CoreUnload
| CoreAsked (name : str)                (* the core's QueryInterface *)
| GameAsked (name : str).               (* the game's CreateInterface *)

Record st := mk {
  libs : list (option nat);      (* gamedll_libs *)
  opened : list nat;             (* handles which are loaded *)
  glib : option nat;             (* gamedll_lib *)
  qvi : option nat;              (* gamedll_qvi: the library it belongs to *)
  config : option nat;           (* config_iface: the library it belongs to *)
  server : option nat;           (* gamedll_iface *)
  ct : nat -> table;             (* the table of ISource2ServerConfig of each library *)
  st_ : nat -> table;            (* the table of ISource2Server of each library *)
  wrt : Z -> bool;               (* pages which may be written *)
  o_connect : addr; o_allow : addr; o_init : addr; o_shutdown : addr;   (* is2sc_orig_..., isgd_orig_... *)
  fact : option Z;               (* g_bridge_info.engineFactory, fsFactory, physicsFactory *)
  bridge : bool;                 (* gamedll_bridge != NULL *)
  core : bool;                   (* mm_library != NULL *)
  trace : list call
}.
Definition set_libs s x := mk x (opened s) (glib s) (qvi s) (config s) (server s) (ct s) (st_ s) (wrt s) (o_connect s) (o_allow s) (o_init s) (o_shutdown s) (fact s) (bridge s) (core s) (trace s).
Definition set_opened s x := mk (libs s) x (glib s) (qvi s) (config s) (server s) (ct s) (st_ s) (wrt s) (o_connect s) (o_allow s) (o_init s) (o_shutdown s) (fact s) (bridge s) (core s) (trace s).
Definition set_glib s x := mk (libs s) (opened s) x (qvi s) (config s) (server s) (ct s) (st_ s) (wrt s) (o_connect s) (o_allow s) (o_init s) (o_shutdown s) (fact s) (bridge s) (core s) (trace s).
Definition set_qvi s x := mk (libs s) (opened s) (glib s) x (config s) (server s) (ct s) (st_ s) (wrt s) (o_connect s) (o_allow s) (o_init s) (o_shutdown s) (fact s) (bridge s) (core s) (trace s).
Definition set_config s x := mk (libs s) (opened s) (glib s) (qvi s) x (server s) (ct s) (st_ s) (wrt s) (o_connect s) (o_allow s) (o_init s) (o_shutdown s) (fact s) (bridge s) (core s) (trace s).
Definition set_server s x := mk (libs s) (opened s) (glib s) (qvi s) (config s) x (ct s) (st_ s) (wrt s) (o_connect s) (o_allow s) (o_init s) (o_shutdown s) (fact s) (bridge s) (core s) (trace s).
Definition set_ct s x := mk (libs s) (opened s) (glib s) (qvi s) (config s) (server s) x (st_ s) (wrt s) (o_connect s) (o_allow s) (o_init s) (o_shutdown s) (fact s) (bridge s) (core s) (trace s).
Definition set_st s x := mk (libs s) (opened s) (glib s) (qvi s) (config s) (server s) (ct s) x (wrt s) (o_connect s) (o_allow s) (o_init s) (o_shutdown s) (fact s) (bridge s) (core s) (trace s).
Definition set_wrt s x := mk (libs s) (opened s) (glib s) (qvi s) (config s) (server s) (ct s) (st_ s) x (o_connect s) (o_allow s) (o_init s) (o_shutdown s) (fact s) (bridge s) (core s) (trace s).
Definition set_oconnect s x := mk (libs s) (opened s) (glib s) (qvi s) (config s) (server s) (ct s) (st_ s) (wrt s) x (o_allow s) (o_init s) (o_shutdown s) (fact s) (bridge s) (core s) (trace s).
Definition set_oallow s x := mk (libs s) (opened s) (glib s) (qvi s) (config s) (server s) (ct s) (st_ s) (wrt s) (o_connect s) x (o_init s) (o_shutdown s) (fact s) (bridge s) (core s) (trace s).
Definition set_oinit s x := mk (libs s) (opened s) (glib s) (qvi s) (config s) (server s) (ct s) (st_ s) (wrt s) (o_connect s) (o_allow s) x (o_shutdown s) (fact s) (bridge s) (core s) (trace s).
Definition set_oshut s x := mk (libs s) (opened s) (glib s) (qvi s) (config s) (server s) (ct s) (st_ s) (wrt s) (o_connect s) (o_allow s) (o_init s) x (fact s) (bridge s) (core s) (trace s).
Definition set_fact s x := mk (libs s) (opened s) (glib s) (qvi s) (config s) (server s) (ct s) (st_ s) (wrt s) (o_connect s) (o_allow s) (o_init s) (o_shutdown s) x (bridge s) (core s) (trace s).
Definition set_bridge s x := mk (libs s) (opened s) (glib s) (qvi s) (config s) (server s) (ct s) (st_ s) (wrt s) (o_connect s) (o_allow s) (o_init s) (o_shutdown s) (fact s) x (core s) (trace s).
Definition set_core s x := mk (libs s) (opened s) (glib s) (qvi s) (config s) (server s) (ct s) (st_ s) (wrt s) (o_connect s) (o_allow s) (o_init s) (o_shutdown s) (fact s) (bridge s) x (trace s).
Definition log s c := mk (libs s) (opened s) (glib s) (qvi s) (config s) (server s) (ct s) (st_ s) (wrt s) (o_connect s) (o_allow s) (o_init s) (o_shutdown s) (fact s) (bridge s) (core s) (trace s ++ [c]).

Definition upd (f : nat -> table) (h : nat) (t : table) : nat -> table := fun k => if k =? h then t else f k.
(** somebody else runs: the tables of library [h] and the pages change *)
Definition others_run (s : st) (h : nat) (f : world -> world) : st :=
  let w := f (W (ct s h) (st_ s h) (wrt s)) in
  set_wrt (set_st (set_ct s (upd (ct s) h (tc w))) (upd (st_ s) h (ts w))) (wr w).

Definition is_open (s : st) (h : nat) : bool := existsb (Nat.eqb h) (opened s).

(** a write to a table: [None] if the page is protected or the library is gone *)
Definition write_conf (L : layout) (s : st) (h i : nat) (a : addr) : option st :=
  if is_open s h && may_write (wrt s) (slot (a_conf L h) i)
  then Some (set_ct s (upd (ct s) h (set_slot (ct s h) i a))) else None.
Definition write_serv (L : layout) (s : st) (h i : nat) (a : addr) : option st :=
  if is_open s h && may_write (wrt s) (slot (a_serv L h) i)
  then Some (set_st s (upd (st_ s) h (set_slot (st_ s h) i a))) else None.

(** ** Libraries *)
Definition load (s : st) (h : nat) : st :=
  let s := if is_open s h then s
           else set_st (set_ct s (upd (ct s) h (Conf h))) (upd (st_ s) h (Serv h)) in
  set_opened s (h :: opened s).
Fixpoint remove1 (h : nat) (l : list nat) : list nat :=
  match l with [] => [] | x :: l' => if x =? h then l' else x :: remove1 h l' end.
Definition unload (s : st) (h : nat) : option st :=
  if is_open s h then Some (set_opened s (remove1 h (opened s))) else None.

(** mm_FreeCachedLibraries (220-230): the entries are not cleared *)
Fixpoint free_cached (s : st) (l : list (option nat)) : option st :=
  match l with
  | [] => Some s
  | None :: l' => free_cached s l'
  | Some h :: l' => do s <- unload s h ; free_cached s l'
  end.
Fixpoint set_nth {A} (l : list A) (i : nat) (x : A) : list A :=
  match l, i with
  | [], _ => []
  | _ :: l', O => x :: l'
  | y :: l', S i' => y :: set_nth l' i' x
  end.

(** what the system and the library answer for one path: mm_LoadLibrary succeeds, it
    exports CreateInterface, CreateInterface knows the name *)
Record answer := ans { a_load : bool; a_qvi : bool; a_ptr : bool }.

(** 786-805: the loop over the paths.  Result: the library that has the interface *)
Fixpoint req_loop (s : st) (i : nat) (al : list answer) : option (st * option nat) :=
  match al with
  | [] => Some (s, None)
  | a :: al' =>
      do cached <- nth_error (libs s) i ;
      let go s h :=
        if negb (is_open s h) then None                    (* mm_GetLibAddress of a library that is gone *)
        else if negb (a_qvi a) then req_loop s (S i) al'
        else if a_ptr a then Some (set_libs s (set_nth (libs s) i None), Some h)
        else req_loop s (S i) al' in
      match cached with
      | Some h => go s h
      | None =>
          if a_load a then
            let s := load s i in
            go (set_libs s (set_nth (libs s) i (Some i))) i
          else req_loop s (S i) al'
      end
  end.

(** ** Patches *)
(** mm_PatchConnect (727-760): Connect is slot 0 *)
Definition PatchConnect (L : layout) (s : st) (patch : bool) : option st :=
  do h <- config s ;
  let s := set_wrt s (protect_rw (wrt s) (slot (a_conf L h) 0)) in
  if patch then write_conf L (set_oconnect s (ct s h 0)) h 0 TConnect
  else do s <- write_conf L s h 0 (o_connect s) ; Some (set_oconnect s Null).
(** mm_PatchAllowDedicated (692-724): is2sc_allowdedi_index (57-59) *)
Definition allowdedi_index : nat := 21.
Definition PatchAllow (L : layout) (s : st) (patch : bool) : option st :=
  do h <- config s ;
  let s := set_wrt s (protect_rw (wrt s) (slot (a_conf L h) allowdedi_index)) in
  if patch then write_conf L (set_oallow s (ct s h allowdedi_index)) h allowdedi_index TAllow
  else do s <- write_conf L s h allowdedi_index (o_allow s) ; Some (set_oallow s Null).
(** mm_PatchDllInit (608-654): Init is slot 3 of ISource2Server *)
Definition init_index : nat := 3.
Definition PatchDllInit (L : layout) (s : st) (patch : bool) : option st :=
  do h <- server s ;
  let s := set_wrt s (protect_rw (wrt s) (slot (a_serv L h) init_index)) in
  if patch then write_serv L (set_oinit s (st_ s h init_index)) h init_index TInit
  else do s <- write_serv L s h init_index (o_init s) ; Some (set_oinit s Null).
(** mm_PatchDllShutdown (656-689): the page is not made writable *)
Definition PatchDllShutdown (L : layout) (s : st) (index : nat) : option st :=
  do h <- config s ;
  write_conf L (set_oshut s (ct s h index)) h index TDisconnect.

(** ** The functions in the tables *)
(** Connect (278-311): [f] the factory, [e] what the game's Connect does, [r] its result *)
Definition Connect (L : layout) (s : st) (f : Z) (e : world -> world) (r : bool) : option (st * bool) :=
  let s := set_fact s (Some f) in
  match o_connect s with
  | TConnect => None                                       (* calls itself for ever *)
  | _ =>
    do h <- config s ;
    let s := others_run (log s (CallConnect (o_connect s) f)) h e in
    do s <- PatchConnect L s false ;
    Some (s, r)
  end.
(** AllowDedicatedServers (345-351), only on Windows *)
Definition AllowDedicatedServers (L : layout) (s : st) : option (st * bool) :=
  do s <- PatchAllow L s false ; Some (s, true).

(** What happens during one Init: the core's library loads, exports GetGameDllBridge,
    DLLInit_Pre succeeds; what the game's Init returns, the index DLLInit_Post stores; and
    what each of them does. *)
Record outcome := out {
  o_load : bool; o_getbridge : bool; o_pre : bool; o_result : bool; o_index : nat;
  e_pre : world -> world; e_game : world -> world; e_post : world -> world
}.
(** Init (361-458) *)
Definition Init (L : layout) (s : st) (o : outcome) : option (st * bool) :=
  let s :=
    if o_load o then
      if o_getbridge o then set_bridge (set_core s true) true
      else set_core s false                                 (* loaded and unloaded again *)
    else s in
  do h <- server s ;
  let s :=
    if bridge s then
      let s := others_run (log s (CorePre (fact s))) h (e_pre o) in
      if o_pre o then s else set_core (set_bridge s false) false
    else s in
  match o_init s with
  | TInit => None                                           (* calls itself for ever *)
  | _ =>
    let s := others_run (log s (CallInit (o_init s))) h (e_game o) in
    do s <- (if negb (o_result o) then
               if bridge s then Some (set_core (set_bridge (log s CoreUnload) false) false) else None
             else if bridge s then
               PatchDllShutdown L (others_run (log s CorePost) h (e_post o)) (o_index o)
             else Some s) ;
    do s <- PatchDllInit L s false ;
    Some (s, o_result o)
  end.

(** Disconnect (313-343) *)
Definition Disconnect (s : st) (e_unload e_game : world -> world) : option st :=
  if bridge s then
    do h <- config s ;
    let s := others_run (log s CoreUnload) h e_unload in
    let s := set_core (set_bridge s false) false in
    match o_shutdown s with
    | TDisconnect => None
    | _ =>
      let s := others_run (log s (CallDisconnect (o_shutdown s))) h e_game in
      do h <- glib s ;
      do s <- unload s h ;
      Some (set_glib s None)
    end
  else None.

(** ** Requests *)
(** what the engine's command line, the files and the game answer: -dedicated, -insecure,
    mm_DetectGameInformation, the paths, the game's CreateInterface for any other name *)
Record env := Env { v_dedicated : bool; v_insecure : bool; v_detect : bool; v_paths : list answer; v_qvi : bool }.

(** mm_GameDllRequest (762-899).  [None]: undefined (or a name for Source 1) *)
Definition GameDllRequest (win : bool) (L : layout) (s : st) (v : env) (name : str) : option (st * bool) :=
  match classify (v_dedicated v) (v_insecure v) name with
  | KRefused => Some (s, false)
  | KConfig =>
      if negb (v_detect v) then Some (s, false)
      else
        do (s, r) <- req_loop s 0 (v_paths v) ;
        match r with
        | None => Some (s, false)
        | Some h =>
            do s <- free_cached s (libs s) ;
            let s := set_qvi (set_config (set_glib s (Some h)) (Some h)) (Some h) in
            do s <- PatchConnect L s true ;
            do s <- (if win then PatchAllow L s true else Some s) ;
            Some (s, true)
        end
  | KServer =>
      do h <- qvi s ;                                       (* a call of NULL otherwise *)
      if negb (is_open s h) then None
      else
        let s := log s (GameAsked name) in
        if v_qvi v then
          do s <- PatchDllInit L (set_server s (Some h)) true ;
          Some (s, true)
        else None                                           (* the table of NULL *)
  | KSource1 => None
  | KOther =>
      match glib s with
      | Some _ =>
          if bridge s then Some (s, false)
          else do h <- qvi s ; if is_open s h then Some (log s (GameAsked name), v_qvi v) else None
      | None => Some (s, false)
      end
  end.
(** CreateInterface (loader.cpp 172-204) for names other than "ISERVERPLUGINCALLBACKS..." *)
Definition CreateInterface (win : bool) (L : layout) (s : st) (v : env) (name : str) : option (st * bool) :=
  if bridge s then Some (log s (CoreAsked name), v_qvi v)
  else GameDllRequest win L s v name.

(** ** The engine calls the entries of the tables *)
Inductive op :=
| Request (v : env) (name : str)
| OConnect (f : Z) (e : world -> world) (r : bool)
| OAllow
| OInit (o : outcome)
| ODisconnect (e_unload e_game : world -> world).

Definition step (win : bool) (L : layout) (s : st) (p : op) : option st :=
  match p with
  | Request v name => do (s, _) <- CreateInterface win L s v name ; Some s
  | OConnect f e r =>
      do h <- config s ;
      if negb (is_open s h) then None else
      match ct s h 0 with
      | TConnect => do (s, _) <- Connect L s f e r ; Some s
      | Conf _ _ | Other _ => Some (others_run (log s (CallConnect (ct s h 0) f)) h e)
      | _ => None
      end
  | OAllow =>
      do h <- config s ;
      if negb (is_open s h) then None else
      match ct s h allowdedi_index with
      | TAllow => do (s, _) <- AllowDedicatedServers L s ; Some s
      | Conf _ _ | Other _ => Some (log s (CallAllow (ct s h allowdedi_index)))
      | _ => None
      end
  | OInit o =>
      do h <- server s ;
      if negb (is_open s h) then None else
      match st_ s h init_index with
      | TInit => do (s, _) <- Init L s o ; Some s
      | Serv _ _ | Other _ => Some (others_run (log s (CallInit (st_ s h init_index))) h (e_game o))
      | _ => None
      end
  | ODisconnect eu eg =>
      do h <- config s ;
      if negb (is_open s h) then None else
      match ct s h 1 with
      | TDisconnect => Disconnect s eu eg
      | Conf _ _ | Other _ => Some (others_run (log s (CallDisconnect (ct s h 1))) h eg)
      | _ => None
      end
  end.

Definition start (paths : nat) (w : Z -> bool) : st :=
  mk (repeat None paths) [] None None None None Conf Serv w Null Null Null Null None false false [].
