(** Model of the server plugin side of the loader and of what it asks of the core.

    Modelled: loader/serverplugin.cpp 66-309 (vsp_bridge, ServerPlugin::Load, Unload,
    GetPluginDescription, PrepForLoad, mm_GetVspCallbacks and the table of virtual functions which
    Load edits), loader/loader.cpp 121-166 (mm_LoadMetamodLibrary, mm_UnloadMetamodLibrary, for what
    they do to the handle), 171-205 (CreateInterface), loader/gamedll.cpp 466-566 and 571-575 (what
    DLLInit and DLLShutdown do to the same variables), core/vsp_bridge.cpp 92-118 (the search for the
    interfaces of the game).

    The detection of the engine is an argument of Load (EngModel has it), and so are the answers of
    the operating system and of the core.  [None] is undefined behaviour: a call through a pointer
    into a library which is no longer loaded, a write to memory which is not writable or outside the
    table, closing a library which is not open. *)
From Coq Require Import List ZArith Bool.
From Verif Require Import EngModel.
Import ListNotations.
Local Open Scope nat_scope.
Notation length := List.length.

(** the functions which can stand in the table (serverplugin.cpp 57-64, 83-281) *)
Inductive fn :=
| fLoad | fUnload | fPause | fUnPause | fGetPluginDescription | fLevelInit | fServerActivate
| fGameFrame | fLevelShutdown | fClientActive | fClientFullyConnect | fClientDisconnect
| fClientPutInServer | fSetCommandClient | fClientSettingsChanged | fClientConnect
| fClientCommand            (* ClientCommand(edict_t * ) *)
| fClientCommandArgs        (* IRandomThings::ClientCommand(edict_t *, const CCommand &) *)
| fNetworkIDValidated | fOnQueryCvarValueFinished.

(** the table as the compiler lays it out: the virtual functions in the order of their declaration
    (serverplugin.cpp 83-281) *)
Definition vtable0 : list fn :=
  [fLoad; fUnload; fPause; fUnPause; fGetPluginDescription; fLevelInit; fServerActivate; fGameFrame;
   fLevelShutdown; fClientActive; fClientFullyConnect; fClientDisconnect; fClientPutInServer;
   fSetCommandClient; fClientSettingsChanged; fClientConnect; fClientCommand; fNetworkIDValidated;
   fOnQueryCvarValueFinished].

(** the vtblindex which GetFuncInfo finds for &ServerPlugin::ClientCommand and
    &ServerPlugin::ClientFullyConnect (C66) *)
Definition idx_ClientCommand : nat := 16.
Definition idx_ClientFullyConnect : nat := 10.

Record st := mk {
  vt : list fn;            (* *(void *** )this *)
  wr : list bool;          (* which of its slots are writable *)
  allowed : bool;          (* load_allowed *)
  ver : Z;                 (* vsp_version *)
  bridge : option nat;     (* vsp_bridge: the handle of the library it points into *)
  gamedll : option nat;    (* gamedll_bridge: likewise *)
  mmb : backend;           (* mm_backend *)
  lib : option nat;        (* mm_library *)
  opened : list nat;       (* the handles which are open *)
  next : nat               (* the handle which the next mm_LoadLibrary returns *)
}.

(** loader.cpp 45, serverplugin.cpp 66, 78-81; a table of virtual functions is not writable *)
Definition init : st :=
  mk vtable0 (map (fun _ => false) vtable0) false 0%Z None None UNKNOWN None [] 0.

Definition set_table s t w := mk t w (allowed s) (ver s) (bridge s) (gamedll s) (mmb s) (lib s) (opened s) (next s).
Definition set_allowed s x := mk (vt s) (wr s) x (ver s) (bridge s) (gamedll s) (mmb s) (lib s) (opened s) (next s).
Definition set_ver s x := mk (vt s) (wr s) (allowed s) x (bridge s) (gamedll s) (mmb s) (lib s) (opened s) (next s).
Definition set_bridge s x := mk (vt s) (wr s) (allowed s) (ver s) x (gamedll s) (mmb s) (lib s) (opened s) (next s).
Definition set_gamedll s x := mk (vt s) (wr s) (allowed s) (ver s) (bridge s) x (mmb s) (lib s) (opened s) (next s).
Definition set_mmb s x := mk (vt s) (wr s) (allowed s) (ver s) (bridge s) (gamedll s) x (lib s) (opened s) (next s).
Definition set_lib s l o n := mk (vt s) (wr s) (allowed s) (ver s) (bridge s) (gamedll s) (mmb s) l o n.

Definition is_open (s : st) (h : nat) : bool := existsb (Nat.eqb h) (opened s).

(** mm_LoadMetamodLibrary when mm_LoadLibrary succeeds (loader.cpp 155); when it fails
    mm_library becomes NULL *)
Definition lib_load (s : st) : st := set_lib s (Some (next s)) (next s :: opened s) (S (next s)).
Definition lib_fail (s : st) : st := set_lib s None (opened s) (next s).

(** mm_UnloadMetamodLibrary (loader.cpp 160-166) *)
Definition lib_unload (s : st) : option st :=
  match lib s with
  | Some h => if is_open s h then Some (set_lib s None (remove Nat.eq_dec h (opened s)) (next s)) else None
  | None => None
  end.

(** a call of a function of the core through a pointer into the library [h] *)
Definition calls (s : st) (h : nat) : bool := is_open s h.

(** SetMemAccess makes the slots [i] to [i + n - 1] writable (C65) *)
Fixpoint allow (w : list bool) (i n : nat) : list bool :=
  match w, i, n with
  | [], _, _ => []
  | x :: w, S i, n => x :: allow w i n
  | x :: w, O, O => x :: w
  | x :: w, O, S n => true :: allow w O n
  end.

(** may the slots [i] to [i + n - 1] be written? *)
Definition may (w : list bool) (i n : nat) : bool :=
  (i + n <=? length w) && forallb (fun b => b) (firstn n (skipn i w)).

(** this_vtable[i] = f *)
Definition put (t : list fn) (i : nat) (f : fn) : list fn := firstn i t ++ f :: skipn (S i) t.

(** memmove(&this_vtable[i], &this_vtable[i + 1], n * sizeof(void * )) *)
Definition shift (t : list fn) (i n : nat) : list fn :=
  firstn i t ++ firstn n (skipn (S i) t) ++ skipn (i + n) t.

(** serverplugin.cpp 108-133 *)
Definition patch_command (s : st) : option st :=
  match mmb s with
  | Episode1 | DarkMessiah => Some s
  | _ =>
      let w := allow (wr s) idx_ClientCommand 1 in
      if may w idx_ClientCommand 1
      then Some (set_table s (put (vt s) idx_ClientCommand fClientCommandArgs) w)
      else None
  end.

(** serverplugin.cpp 136-163 *)
Definition patch_shift (s : st) : option st :=
  match mmb s with
  | AlienSwarm | Portal2 | Blade | Insurgency | DOI | CSGO | MCV => Some s
  | _ =>
      let w := allow (wr s) idx_ClientFullyConnect 8 in
      if may w idx_ClientFullyConnect 8 && (S idx_ClientFullyConnect + 8 <=? length (vt s))
      then Some (set_table s (shift (vt s) idx_ClientFullyConnect 8) w)
      else None
  end.

(** what Load finds *)
Record env := mkenv {
  e_backend : backend;     (* mm_DetermineBackendS1 *)
  e_lib : bool;            (* mm_LoadLibrary finds the core *)
  e_proc : bool;           (* the core exports GetVspBridge *)
  e_ok : bool              (* vsp_bridge->Load *)
}.

(** how Load ends: [Refused] and [NoEngine] to [BridgeRefused] return false, the last four of them
    with an entry in the log; [Loaded] returns true, having given the core the version [v]; the
    engine is noted here for the statements *)
Inductive lres := Refused | NoEngine | NoLibrary | NoBridge | BridgeRefused | Loaded (b : backend) (v : Z).

Definition is_none {A} (x : option A) : bool := match x with None => true | Some _ => false end.

Definition unload_if_vsp (s : st) : option st :=
  if is_none (gamedll s) then lib_unload s else Some s.

(** ServerPlugin::Load (serverplugin.cpp 83-209) *)
Definition load (s : st) (e : env) : option (lres * st) :=
  if negb (allowed s) then Some (Refused, s)
  else
    let s := set_allowed s false in
    let s := if is_none (gamedll s) then set_mmb s (e_backend e) else s in
    match mmb s with
    | UNKNOWN => Some (NoEngine, s)
    | _ =>
        match patch_command s with
        | None => None
        | Some s =>
            match patch_shift s with
            | None => None
            | Some s =>
                if is_none (gamedll s) && negb (e_lib e) then Some (NoLibrary, lib_fail s)
                else
                  let s := if is_none (gamedll s) then lib_load s else s in
                  match lib s with
                  | None => None                          (* mm_GetProcAddress of no library *)
                  | Some h =>
                      if negb (e_proc e) then
                        match unload_if_vsp s with Some s => Some (NoBridge, s) | None => None end
                      else
                        let s := set_bridge s (Some h) in
                        if negb (calls s h) then None
                        else if negb (e_ok e) then
                          match unload_if_vsp (set_bridge s None) with
                          | Some s => Some (BridgeRefused, s)
                          | None => None
                          end
                        else Some (Loaded (mmb s) (ver s), s)
                  end
            end
        end
    end.

(** ServerPlugin::Unload (serverplugin.cpp 210-220) *)
Definition unload (s : st) : option st :=
  match bridge s with
  | None => Some s
  | Some h => if calls s h then unload_if_vsp s else None
  end.

(** ServerPlugin::GetPluginDescription (serverplugin.cpp 227-232): [true] when the core is asked *)
Definition describe (s : st) : option bool :=
  match bridge s with
  | None => Some false
  | Some h => if calls s h then Some true else None
  end.

(** mm_GetVspCallbacks (serverplugin.cpp 296-309); the version is an [int] converted to
    [unsigned int] (loader.cpp 187) *)
Definition get_callbacks (s : st) (v : Z) : bool * st :=
  match bridge s with
  | Some _ => (false, s)
  | None =>
      let u := (v mod 2 ^ 32)%Z in
      if (2 <? u)%Z then (false, s) else (true, set_allowed (set_ver s u) true)
  end.

(** CreateInterface (loader.cpp 171-205) for a name which is not that of the server plugin
    callbacks: NULL, the search for a game library (mm_GameDllRequest), or the answer of the core *)
Inductive qres := QNull | QGameDllRequest | QForward.
Definition query (s : st) : option qres :=
  match bridge s with
  | Some _ => Some QNull
  | None =>
      match gamedll s with
      | None => Some QGameDllRequest
      | Some h => if calls s h then Some QForward else None
      end
  end.

(** DLLInit when the core accepts (gamedll.cpp 466-566: detects the engine [b], loads the library,
    sets gamedll_bridge); the engine calls it once, before it loads server plugins *)
Definition game_init (s : st) (b : backend) : st :=
  let s := lib_load (set_mmb s b) in set_gamedll s (lib s).

(** DLLShutdown (gamedll.cpp 571-575) *)
Definition game_shutdown (s : st) : option st :=
  match gamedll s with
  | Some h => if calls s h then lib_unload (set_gamedll s None) else None
  | None => None
  end.

Inductive op :=
| GetCallbacks (v : Z)      (* CreateInterface("ISERVERPLUGINCALLBACKS...") *)
| Load (e : env)
| Unload
| Describe
| Query
| GameInit (b : backend)
| GameShutdown.

Inductive out :=
| ONone
| OCallbacks (given : bool)
| OLoad (r : lres)
| ODescribe (core : bool)
| OQuery (q : qres).

Definition step (s : st) (o : op) : option (out * st) :=
  match o with
  | GetCallbacks v =>
      match bridge s with
      | Some _ => Some (OCallbacks false, s)               (* loader.cpp 174-181 *)
      | None => let r := get_callbacks s v in Some (OCallbacks (fst r), snd r)
      end
  | Load e => match load s e with Some (r, s) => Some (OLoad r, s) | None => None end
  | Unload => match unload s with Some s => Some (ONone, s) | None => None end
  | Describe => match describe s with Some b => Some (ODescribe b, s) | None => None end
  | Query => match query s with Some q => Some (OQuery q, s) | None => None end
  | GameInit b => Some (ONone, game_init s b)
  | GameShutdown => match game_shutdown s with Some s => Some (ONone, s) | None => None end
  end.

Fixpoint run (s : st) (l : list op) : option (list out * st) :=
  match l with
  | [] => Some ([], s)
  | o :: l =>
      match step s o with
      | None => None
      | Some (x, s) => match run s l with Some (xs, s) => Some (x :: xs, s) | None => None end
      end
  end.

(** ** core/vsp_bridge.cpp *)

(** 92-100: the first of ServerGameDLL003 to ServerGameDLL050 *)
Fixpoint find_server (has : nat -> bool) (i n : nat) : option nat :=
  match n with
  | O => None
  | S n => if has i then Some i else find_server has (S i) n
  end.
Definition server_version (has : nat -> bool) : option nat := find_server has 3 48.

(** 108-114: the loop over ServerGameClients003 and ServerGameClients004, which leaves the last
    answer in [gameclients] *)
Fixpoint gameclients_loop (has : nat -> bool) (i n : nat) (g : option nat) : option nat :=
  match n with
  | O => g
  | S n => if has i then gameclients_loop has (S i) n (Some i) else None
  end.

(** core/provider/source/provider_source.cpp 95-99, which mm_InitializeGlobals runs after that *)
Definition gameclients_provider (has : nat -> bool) : option nat :=
  if has 3 then Some 3 else if has 4 then Some 4 else None.
