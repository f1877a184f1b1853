(** Model of how the core starts, loads plugins at level ends and asks for the server plugin listener.

    Modelled: core/metamod.cpp 71-94 (the flags), 136-200 (OnGameInit, OnLevelInit, OnLevelShutdown),
    212-226 (mm_InitializeForLoad, for the flag), 348-351 and 386-392 (InitializeVSP, for whether it
    sends the command), 498-541 (mm_StartupMetamod), 801-814 (EnableVSPListener), 1072-1099
    (NotifyVSPListening, GetVSPInfo), 1118-1129 (is_gamedll_loaded); core/gamedll_bridge.cpp 39-79
    (DLLInit_Pre, DLLInit_Post), core/vsp_bridge.cpp 72-135 (VspBridge::Load, for the calls it makes),
    core/metamod_plugins.cpp 207-225 (SetAllLoaded, for the flag).

    What happens is written to a trace.  Loading plugins and their AllPluginsLoaded callbacks run code
    of plugins, which may call EnableVSPListener: whether they do is an argument ([true]: they do, any
    number of times; a second call in a row changes nothing, [BootProofs.enable_twice]).  When the
    core is loaded as a server plugin there are no plugins yet. *)
From Coq Require Import List ZArith Bool.
Import ListNotations.
Local Open Scope nat_scope.

Inductive ev :=
| Initial                               (* DoInitialPluginLoads *)
| Refresh                               (* mm_LoadPlugins at the end of a level *)
| AllLoaded                             (* AllPluginsLoaded is called in every running plugin *)
| Request                               (* EnableVSPListener is called *)
| Command                               (* plugin_load "metamod" is sent to the engine *)
| Listening (cb : nat) (v : Z)          (* OnVSPListening is called in every listener *)
| GameStarted                           (* the first OnGameInit has run *)
| LevelBegin                            (* OnLevelInit is called in every listener *)
| LevelEnd.                             (* OnLevelShutdown is called in every listener *)

Record st := mk {
  gamedll : bool;           (* is_gamedll_loaded *)
  bridged : bool;           (* g_bIsVspBridged *)
  were : bool;              (* were_plugins_loaded *)
  first : bool;             (* in_first_level *)
  ginit : bool;             (* is_game_init *)
  requested : bool;         (* vsp_load_requested; vsp_loaded is never set *)
  all : bool;               (* m_AllLoaded *)
  cbs : option nat;         (* vsp_callbacks *)
  vver : Z;                 (* vsp_version *)
  trace : list ev
}.

(** metamod.cpp 71-94 *)
Definition init : st := mk false false false true false false false None 0%Z [].

Definition set_gamedll s x := mk x (bridged s) (were s) (first s) (ginit s) (requested s) (all s) (cbs s) (vver s) (trace s).
Definition set_bridged s x := mk (gamedll s) x (were s) (first s) (ginit s) (requested s) (all s) (cbs s) (vver s) (trace s).
Definition set_were s x := mk (gamedll s) (bridged s) x (first s) (ginit s) (requested s) (all s) (cbs s) (vver s) (trace s).
Definition set_first s x := mk (gamedll s) (bridged s) (were s) x (ginit s) (requested s) (all s) (cbs s) (vver s) (trace s).
Definition set_ginit s x := mk (gamedll s) (bridged s) (were s) (first s) x (requested s) (all s) (cbs s) (vver s) (trace s).
Definition set_requested s x := mk (gamedll s) (bridged s) (were s) (first s) (ginit s) x (all s) (cbs s) (vver s) (trace s).
Definition set_all s x := mk (gamedll s) (bridged s) (were s) (first s) (ginit s) (requested s) x (cbs s) (vver s) (trace s).
Definition set_cbs s x := mk (gamedll s) (bridged s) (were s) (first s) (ginit s) (requested s) (all s) x (vver s) (trace s).
Definition set_vver s x := mk (gamedll s) (bridged s) (were s) (first s) (ginit s) (requested s) (all s) (cbs s) x (trace s).
Definition emit s e := mk (gamedll s) (bridged s) (were s) (first s) (ginit s) (requested s) (all s) (cbs s) (vver s) (trace s ++ [e]).

(** InitializeVSP (metamod.cpp 348-392) *)
Definition InitializeVSP (s : st) : st := if bridged s then s else emit s Command.

(** EnableVSPListener (metamod.cpp 801-809) *)
Definition EnableVSPListener (s : st) : st :=
  let s := emit s Request in
  let s := if ginit s && negb (requested s) then InitializeVSP s else s in
  set_requested s true.

(** code of plugins *)
Definition plugins (asks : bool) (s : st) : st := if asks then EnableVSPListener s else s.

(** DoInitialPluginLoads (metamod.cpp 469-496) *)
Definition DoInitialPluginLoads (asks : bool) (s : st) : st := plugins asks (emit s Initial).

(** SetAllLoaded (metamod_plugins.cpp 207-225) *)
Definition SetAllLoaded (asks : bool) (s : st) : st :=
  if all s then s else plugins asks (emit (set_all s true) AllLoaded).

(** NotifyVSPListening (metamod.cpp 1072-1089) *)
Definition NotifyVSPListening (asks : bool) (cb : nat) (v : Z) (s : st) : st :=
  let s := if (v =? -1)%Z then s else set_vver s v in
  let s := set_cbs s (Some cb) in
  let s := plugins asks (emit s (Listening cb v)) in
  if gamedll s then set_were (set_bridged s true) true else s.

(** mm_StartupMetamod (metamod.cpp 498-541) *)
Definition mm_StartupMetamod (is_vsp_load : bool) (asks : bool) (s : st) : st :=
  let s := set_bridged s is_vsp_load in
  if negb is_vsp_load then set_first (DoInitialPluginLoads asks s) true else s.

(** mm_InitializeForLoad (metamod.cpp 212-226) *)
Definition mm_InitializeForLoad (s : st) : st := set_first s true.

(** GetVSPInfo (metamod.cpp 1091-1099) *)
Definition GetVSPInfo (s : st) : option nat * Z := (cbs s, vver s).

Inductive op :=
| DLLInit_Pre (asks : bool)               (* gamedll_bridge.cpp 39-62 *)
| DLLInit_Post (asks : bool)              (* 63-79 *)
| VspLoad (asks : bool) (cb : nat) (v : Z)  (* vsp_bridge.cpp 72-135 *)
| OnGameInit (asks1 asks2 : bool)
| OnLevelInit
| OnLevelShutdown (asks1 asks2 asks3 : bool)
| Enable.                                 (* EnableVSPListener from anywhere else *)

(** metamod.cpp 136-154 *)
Definition game_init (a1 a2 : bool) (s : st) : st :=
  if ginit s then s
  else
    let s := if requested s then InitializeVSP s else s in
    let s := if bridged s && negb (were s)
             then set_were (SetAllLoaded a2 (DoInitialPluginLoads a1 s)) true else s in
    emit (set_ginit s true) GameStarted.

(** metamod.cpp 164-200 *)
Definition level_shutdown (a1 a2 a3 : bool) (s : st) : st :=
  let s := if bridged s && negb (were s)
           then set_first (set_were (SetAllLoaded a2 (DoInitialPluginLoads a1 s)) true) true else s in
  let s := if negb (first s) then plugins a3 (emit s Refresh) else set_first s false in
  emit s LevelEnd.

Definition step (s : st) (o : op) : st :=
  match o with
  | DLLInit_Pre a =>
      mm_StartupMetamod false a (mm_InitializeForLoad (set_gamedll s true))
  | DLLInit_Post a => SetAllLoaded a s
  | VspLoad a cb v =>
      if negb (gamedll s)
      then mm_StartupMetamod true false
             (NotifyVSPListening false cb v (mm_InitializeForLoad (set_gamedll s false)))
      else NotifyVSPListening a cb v s
  | OnGameInit a1 a2 => game_init a1 a2 s
  | OnLevelInit => emit s LevelBegin
  | OnLevelShutdown a1 a2 a3 => level_shutdown a1 a2 a3 s
  | Enable => EnableVSPListener s
  end.

Definition run (l : list op) : st := fold_left step l init.
