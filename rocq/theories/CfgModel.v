(** Model of where Metamod looks for plugins.  Sources: /repo/core/metamod.cpp 136-154 (OnGameInit), 163-196 (OnLevelShutdown), 469-496
    (DoInitialPluginLoads), 499-541 (mm_StartupMetamod), 910-918 (GetPluginsFile, GetVDFDir);
    /repo/core/metamod_console.cpp 151-168 (meta refresh); the providers' GetCommandLineValue and
    GetConVarString (provider_source.cpp 344-361 and 374-382, provider_source2.cpp 255-258 and 275-284).

    The engine's command line is an oracle: [parm key] is CommandLine()->ParmValue, [cvarcmd key] is
    ICvar::GetCommandLineValue (used by Source 1 for keys without a sign).  A null pointer is [None]; passing it
    to "%s" is undefined.  The paths are the formatted texts before separators are changed and the buffer cuts
    them (both in StrModel.v).  Not modelled: a server plugin that is
    loaded while Metamod runs (NotifyVSPListening, BootModel.v), loading itself (PluginModel.v and VdfModel.v), the flags of the
    variables. *)
From Coq Require Import List ZArith Bool Ascii String.
Import ListNotations.
Local Open Scope string_scope.

Inductive engine := Source1 | Source2.
Record env := Env {
  eng : engine;
  icvar : bool;                          (* the interface was found *)
  parm : string -> option string;
  cvarcmd : string -> option string;
  vsp : bool;                            (* is_vsp_load *)
  mod_path : string
}.

(** provider_source.cpp 344-361, provider_source2.cpp 255-258 *)
Definition signed (key : string) : bool :=
  match key with String c _ => Ascii.eqb c "-" || Ascii.eqb c "+" | EmptyString => false end.
Definition or_def (v d : option string) : option string := match v with Some _ => v | None => d end.
Definition GetCommandLineValue (e : env) (key : string) (def : option string) : option string :=
  match eng e with
  | Source1 =>
      if signed key then or_def (parm e key) def
      else if icvar e then match cvarcmd e key with None => def | Some v => Some v end
      else None
  | Source2 => or_def (parm e key) def
  end.

(** provider_source.cpp 374-382, provider_source2.cpp 275-284; [None]: no variable has been created *)
Definition GetConVarString (e : env) (v : option string) : option string :=
  match v with
  | None => None
  | Some t => match eng e with Source1 => Some t | Source2 => if String.eqb t "" then None else Some t end
  end.

Record st := mk {
  pluginsfile : option string; basedir : option string;   (* the variables *)
  were_loaded : bool;                                      (* were_plugins_loaded *)
  in_first : bool;                                         (* in_first_level *)
  game_init : bool;                                        (* is_game_init *)
  loads : list (string * string)                           (* calls of mm_LoadPlugins *)
}.
Definition load (file dir : option string) (e : env) (s : st) : option st :=
  match file, dir with
  | Some f, Some d =>
      Some (mk (pluginsfile s) (basedir s) (were_loaded s) (in_first s) (game_init s)
               (loads s ++ [(mod_path e ++ "/" ++ f, mod_path e ++ "/" ++ d)%string]))
  | _, _ => None
  end.

(** 469-496 *)
Definition DoInitialPluginLoads (e : env) (s : st) : option st :=
  let pluginFile := GetCommandLineValue e "mm_pluginsfile" None in
  let mmBaseDir := GetCommandLineValue e "mm_basedir" None in
  let pluginFile := match pluginFile with
    | None => match GetConVarString e (pluginsfile s) with None => Some "addons/metamod/metaplugins.ini" | p => p end
    | p => p end in
  let mmBaseDir := match mmBaseDir with
    | None => match GetConVarString e (basedir s) with None => Some "addons/metamod" | p => p end
    | p => p end in
  load pluginFile mmBaseDir e s.

(** 499-541, on Linux *)
Definition mm_StartupMetamod (e : env) (s : st) : option st :=
  let s := mk (Some "addons/metamod/metaplugins.ini") (Some "addons/metamod") (were_loaded s) (in_first s) (game_init s) (loads s) in
  if vsp e then Some s
  else match DoInitialPluginLoads e s with
       | Some s => Some (mk (pluginsfile s) (basedir s) (were_loaded s) true (game_init s) (loads s))
       | None => None
       end.

(** 136-154 *)
Definition OnGameInit (e : env) (s : st) : option st :=
  if game_init s then Some s
  else
    match
      (if vsp e && negb (were_loaded s) then
         match DoInitialPluginLoads e s with
         | Some s => Some (mk (pluginsfile s) (basedir s) true (in_first s) (game_init s) (loads s))
         | None => None
         end
       else Some s)
    with
    | None => None
    | Some s => Some (mk (pluginsfile s) (basedir s) (were_loaded s) (in_first s) true (loads s))
    end.

(** 163-196 *)
Definition OnLevelShutdown (e : env) (s : st) : option st :=
  match
    (if vsp e && negb (were_loaded s) then
       match DoInitialPluginLoads e s with
       | Some s => Some (mk (pluginsfile s) (basedir s) true true (game_init s) (loads s))
       | None => None
       end
     else Some s)
  with
  | None => None
  | Some s =>
      if negb (in_first s) then load (GetConVarString e (pluginsfile s)) (GetConVarString e (basedir s)) e s
      else Some (mk (pluginsfile s) (basedir s) (were_loaded s) false (game_init s) (loads s))
  end.

(** metamod_console.cpp 151-168 *)
Definition meta_refresh (e : env) (s : st) : option st :=
  load (GetConVarString e (pluginsfile s)) (GetConVarString e (basedir s)) e s.

Inductive op := SetFile (v : string) | SetDir (v : string) | GameStarts | LevelEnds | Refresh.
Definition step (e : env) (s : st) (o : op) : option st :=
  match o with
  | SetFile v => Some (mk (Some v) (basedir s) (were_loaded s) (in_first s) (game_init s) (loads s))
  | SetDir v => Some (mk (pluginsfile s) (Some v) (were_loaded s) (in_first s) (game_init s) (loads s))
  | GameStarts => OnGameInit e s
  | LevelEnds => OnLevelShutdown e s
  | Refresh => meta_refresh e s
  end.
Fixpoint run (e : env) (l : list op) (s : st) : option st :=
  match l with [] => Some s | o :: l => match step e s o with Some s => run e l s | None => None end end.
(** 77, 93; is_game_init is false *)
Definition start : st := mk None None false true false [].
Definition session (e : env) (l : list op) : option st :=
  match mm_StartupMetamod e start with Some s => run e l s | None => None end.
