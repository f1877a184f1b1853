(** Model of the hooks that the providers place in the game and what they announce to the core.
    Sources: /repo/core/provider/source2/provider_source2.cpp (60-166 Notify_DLLInit_Pre and
    Notify_DLLShutdown_Pre, 236-241 GetGamePath, 390-472 the handlers), /repo/core/provider/source/provider_source.cpp
    (63-154, 325-328 and 643-694, the same for Source 1); /repo/core/gamedll_bridge.cpp 39-62 and
    /repo/core/metamod.cpp 228-240, 543-563, for what they call.

    A hook is a method and an object.  SH_ADD_HOOK appends one, SH_REMOVE_HOOK takes away those that are
    equal (sourcehook.cpp 177-202), a call of a method runs the handler once for each hook on that method
    and object: that is what is proved of SourceHook elsewhere.  None of the handlers changes the hooks on
    the method it is called for.  SH_ADD_HOOK reads the vtable of the object, so with a null pointer ([0])
    it is undefined ([None]; sourcehook.cpp 119-126).

    Not modelled: console variables and commands (ConModel.v), the search for interfaces beyond whether it
    succeeds, the search paths of Source 2, AllowDedicatedServers (not compiled by default),
    user messages.  m_pCallbacks is set before any of this (metamod.cpp 225). *)
From Coq Require Import List ZArith Bool Ascii String.
Import ListNotations.
Local Open Scope nat_scope.

Inductive meth :=
| ClientCommand | RegisterLoopMode | UnregisterLoopMode | CreateLoopMode | DestroyLoopMode
| LoopInit | LoopShutdown | GameInit | LevelInit | LevelShutdown.
Definition meth_eq_dec : forall a b : meth, {a = b} + {a <> b}.
Proof. decide equality. Defined.

Definition obj := nat.
Definition hook := (meth * obj)%type.
Definition hook_eqb (a b : hook) : bool :=
  (if meth_eq_dec (fst a) (fst b) then true else false) && (snd a =? snd b).

(** What the provider tells the core, and what becomes of a client's command *)
Inductive ann :=
| OnGameInit | OnLevelInit | OnLevelShutdown
| OnClientMeta                    (* OnCommand_ClientMeta *)
| Passed (cmd : string).          (* the game's own ClientCommand runs *)

Record st := mk {
  hooks : list hook;
  svcmgr : obj;                   (* enginesvcmgr *)
  clients : obj;                  (* gameclients *)
  server : obj;                   (* the IServerGameDLL, set by the bridges *)
  outs : list ann
}.
Definition set_hooks s x := mk x (svcmgr s) (clients s) (server s) (outs s).
Definition announce s a := mk (hooks s) (svcmgr s) (clients s) (server s) (outs s ++ [a]).

Definition count (h : hook) (l : list hook) : nat := List.length (filter (hook_eqb h) l).

(** SH_ADD_HOOK, SH_REMOVE_HOOK *)
Definition add (m : meth) (o : obj) (s : st) : option st :=
  if o =? 0 then None else Some (set_hooks s (hooks s ++ [(m, o)])).
Definition del (m : meth) (o : obj) (s : st) : option st :=
  Some (set_hooks s (filter (fun h => negb (hook_eqb (m, o) h)) (hooks s))).
Definition bind (x : option st) (f : st -> option st) : option st := match x with None => None | Some s => f s end.
Infix ">>" := bind (at level 50, left associativity).

(** a handler runs once for each hook *)
Fixpoint times (n : nat) (f : st -> option st) (s : st) : option st :=
  match n with O => Some s | S n => f s >> times n f end.
Definition called (m : meth) (o : obj) (f : st -> option st) (s : st) : option st :=
  times (count (m, o) (hooks s)) f s.

(** ** Source 2 *)
(** which interfaces are found: the engine, the console variables, the file system *)
Record found := Found { f_engine : bool; f_icvar : bool; f_fs : bool; f_mgr : obj; f_clients : obj }.

(** Notify_DLLInit_Pre (60-150): without a file system a message is logged and the null pointer is
    used all the same (84, 118). *)
Definition DLLInit2 (e : found) (s : st) : option st :=
  if negb (f_engine e) then Some s
  else
    let s := mk (hooks s) (f_mgr e) (clients s) (server s) (outs s) in
    if negb (f_icvar e) then Some s
    else
      let s := mk (hooks s) (svcmgr s) (f_clients e) (server s) (outs s) in
      if negb (f_fs e) then None
      else
        (if clients s =? 0 then Some s else add ClientCommand (clients s) s)
        >> (fun s => add RegisterLoopMode (svcmgr s) s)
        >> (fun s => add UnregisterLoopMode (svcmgr s) s).

(** Notify_DLLShutdown_Pre (152-166) *)
Definition DLLShutdown2 (s : st) : option st :=
  del RegisterLoopMode (svcmgr s) s
  >> (fun s => del UnregisterLoopMode (svcmgr s) s)
  >> (fun s => if clients s =? 0 then Some s else del ClientCommand (clients s) s).

(** Hook_RegisterLoopMode (390-402), Hook_UnregisterLoopMode (404-413) *)
Definition Hook_RegisterLoopMode (name : string) (f : obj) (s : st) : option st :=
  if String.eqb name "game" then
    add CreateLoopMode f s >> add DestroyLoopMode f >> (fun s => Some (announce s OnGameInit))
  else Some s.
Definition Hook_UnregisterLoopMode (name : string) (f : obj) (s : st) : option st :=
  if String.eqb name "game" then del CreateLoopMode f s >> del DestroyLoopMode f else Some s.

(** Hook_CreateLoopModePost (415-423); [orig] is META_RESULT_ORIG_RET *)
Definition Hook_CreateLoopModePost (orig : obj) (s : st) : option st :=
  add LoopInit orig s >> add LoopShutdown orig.
(** Hook_DestroyLoopMode (425-429) *)
Definition Hook_DestroyLoopMode (m : obj) (s : st) : option st :=
  del LoopInit m s >> del LoopShutdown m.
(** Hook_LoopInitPost (431-447), Hook_LoopShutdownPost (449-455) *)
Definition Hook_LoopInitPost (s : st) : option st := Some (announce s OnLevelInit).
Definition Hook_LoopShutdownPost (s : st) : option st := Some (announce s OnLevelShutdown).

(** Hook_ClientCommand (457-472; Source 1: 674-694): a pre hook that supercedes for "meta" *)
Definition client_command (o : obj) (arg0 : string) (s : st) : option st :=
  called ClientCommand o (fun s => Some (if String.eqb arg0 "meta" then announce s OnClientMeta else s)) s
  >> (fun s' => if (0 <? count (ClientCommand, o) (hooks s)) && String.eqb arg0 "meta" then Some s'
                else Some (announce s' (Passed arg0))).

(** What the engine does.  [Create f orig seen]: the original CreateLoopMode of [f] returns [orig], its
    caller gets [seen] (another plugin may have overridden it). *)
Inductive op2 :=
| Register (name : string) (f : obj)
| Unregister (name : string) (f : obj)
| Create (f orig seen : obj)
| Destroy (f m : obj)
| Init (m : obj)
| Stop (m : obj)
| Command (arg0 : string).

Definition step2 (s : st) (o : op2) : option st :=
  match o with
  | Register name f => called RegisterLoopMode (svcmgr s) (Hook_RegisterLoopMode name f) s
  | Unregister name f => called UnregisterLoopMode (svcmgr s) (Hook_UnregisterLoopMode name f) s
  | Create f orig _ => called CreateLoopMode f (Hook_CreateLoopModePost orig) s
  | Destroy f m => called DestroyLoopMode f (Hook_DestroyLoopMode m) s
  | Init m => called LoopInit m Hook_LoopInitPost s
  | Stop m => called LoopShutdown m Hook_LoopShutdownPost s
  | Command arg0 => client_command (clients s) arg0 s
  end.
Definition run2 (l : list op2) (s : st) : option st := fold_left (fun s o => s >> (fun s => step2 s o)) l (Some s).

(** ** Source 1 *)
(** Notify_DLLInit_Pre (provider_source.cpp 63-139) *)
Definition DLLInit1 (e : found) (s : st) : option st :=
  if negb (f_engine e) then Some s
  else if negb (f_icvar e) then Some s
  else
    let s := mk (hooks s) (svcmgr s) (f_clients e) (server s) (outs s) in
    (if clients s =? 0 then Some s else add ClientCommand (clients s) s)
    >> (fun s => add GameInit (server s) s)
    >> (fun s => add LevelInit (server s) s)
    >> (fun s => add LevelShutdown (server s) s).
(** Notify_DLLShutdown_Pre (141-154) *)
Definition DLLShutdown1 (s : st) : option st :=
  del GameInit (server s) s >> (fun s => del LevelInit (server s) s) >> (fun s => del LevelShutdown (server s) s).

Inductive op1 := GGameInit | GLevelInit | GLevelShutdown | GCommand (arg0 : string).
(** Hook_GameInit, Hook_LevelInit, Hook_LevelShutdown (643-672) *)
Definition step1 (s : st) (o : op1) : option st :=
  match o with
  | GGameInit => called GameInit (server s) (fun s => Some (announce s OnGameInit)) s
  | GLevelInit => called LevelInit (server s) (fun s => Some (announce s OnLevelInit)) s
  | GLevelShutdown => called LevelShutdown (server s) (fun s => Some (announce s OnLevelShutdown)) s
  | GCommand arg0 => client_command (clients s) arg0 s
  end.
Definition run1 (l : list op1) (s : st) : option st := fold_left (fun s o => s >> (fun s => step1 s o)) l (Some s).

(** ** The start of the core *)
(** GetGamePath: engine->GetGameDir (Source 2: 236-241, Source 1: 325-328), called by
    mm_DetectGameInformation (metamod.cpp 228-240) *)
Definition GetGamePath (e : found) (s : st) : option st := if f_engine e then Some s else None.
(** DLLInit_Pre (gamedll_bridge.cpp 39-57): mm_InitializeGlobals calls Notify_DLLInit_Pre
    (metamod.cpp 543-557), then mm_DetectGameInformation follows *)
Definition DLLInit_Pre2 (e : found) (s : st) : option st := DLLInit2 e s >> GetGamePath e.
Definition DLLInit_Pre1 (e : found) (s : st) : option st := DLLInit1 e s >> GetGamePath e.

(** before anything has happened; the bridges have set the server *)
Definition start (srv : obj) : st := mk [] 0 0 srv [].
