(** Which engine is which: the decision table. *)
From Coq Require Import List Arith Ascii Bool String NArith.
From Verif Require Import StrModel StrSpec EngModel.
Import ListNotations.
Local Open Scope string_scope.

Section Table.
  Variables (engine server pattern : string -> bool) (game_name : str).
  Local Definition Eng (s : string) : Prop := engine s = true.
  Local Definition Srv (s : string) : Prop := server s = true.
  Local Definition named (g : string) : Prop := game_name = list_ascii_of_string g.
  (** the game is known by its directory or by a text in its library *)
  Local Definition is_game (g p : string) : Prop := named g \/ pattern p = true.

  (** Engine families *)
  Definition f023 := Eng "VEngineServer023".
  Definition f022 := ~ f023 /\ Eng "VEngineServer022" /\ Eng "VEngineCvar007".
  Definition f021 := ~ f023 /\ ~ f022 /\ Eng "VEngineServer021".
  Definition csgo_like := f023 /\ Eng "EngineTraceServer004".
  Definition swarm_like := f022 /\ Eng "EngineTraceServer004".
  Definition l4d_like := f022 /\ ~ Eng "EngineTraceServer004".
  Definition orange_box := f021 /\ Eng "VEngineCvar004".
  Definition old := f021 /\ ~ Eng "VEngineCvar004" /\ Eng "VModelInfoServer001" /\ (Eng "VEngineCvar003" \/ Eng "VEngineCvar002").
  Definition valve_ob :=
    (f023 /\ ~ Eng "EngineTraceServer004") \/
    (orange_box /\ ~ Eng "VModelInfoServer002" /\ Eng "VModelInfoServer003" /\ ~ Eng "VFileSystem017").
  Definition is_css := is_game "cstrike" "DT_CSPlayerResource".
  Definition is_tf := is_game "tf" "DT_TFPlayerResource".
  Definition is_dod := is_game "dod" "DT_DODPlayerResource".

  Inductive engine_is : backend -> Prop :=
  | e_doi : csgo_like -> Eng "IEngineSoundServer004" -> is_game "doi" "doi_gamerules_data" -> engine_is DOI
  | e_ins : csgo_like -> Eng "IEngineSoundServer004" -> ~ is_game "doi" "doi_gamerules_data" -> engine_is Insurgency
  | e_bms : csgo_like -> ~ Eng "IEngineSoundServer004" -> Srv "ServerGameDLL010" -> engine_is BMS
  | e_blade : csgo_like -> ~ Eng "IEngineSoundServer004" -> ~ Srv "ServerGameDLL010" -> Srv "VSERVERTOOLS003" -> engine_is Blade
  | e_mcv : csgo_like -> ~ Eng "IEngineSoundServer004" -> ~ Srv "ServerGameDLL010" -> ~ Srv "VSERVERTOOLS003" ->
            named "vietnam" -> engine_is MCV
  | e_csgo : csgo_like -> ~ Eng "IEngineSoundServer004" -> ~ Srv "ServerGameDLL010" -> ~ Srv "VSERVERTOOLS003" ->
            ~ named "vietnam" -> engine_is CSGO
  | e_swarm : swarm_like -> Eng "XboxSystemInterface001" -> engine_is AlienSwarm
  | e_portal2 : swarm_like -> ~ Eng "XboxSystemInterface001" -> is_game "portal2" "baseportalcombatweapon" -> engine_is Portal2
  | e_oldblade : swarm_like -> ~ Eng "XboxSystemInterface001" -> ~ is_game "portal2" "baseportalcombatweapon" -> engine_is Blade
  | e_nd : l4d_like -> Eng "VPrecacheSystem001" -> Srv "ServerGameTags002" -> engine_is NuclearDawn
  | e_contagion : l4d_like -> Eng "VPrecacheSystem001" -> ~ Srv "ServerGameTags002" -> is_game "contagion" "Contagion_Chat_All" ->
            engine_is Contagion
  | e_l4d2 : l4d_like -> Eng "VPrecacheSystem001" -> ~ Srv "ServerGameTags002" -> ~ is_game "contagion" "Contagion_Chat_All" ->
            engine_is Left4Dead2
  | e_l4d : l4d_like -> ~ Eng "VPrecacheSystem001" -> engine_is Left4Dead
  | e_bgt : orange_box -> Eng "VModelInfoServer002" -> is_game "pm" "DT_PMPlayerResource" -> engine_is BloodyGoodTime
  | e_ep2 : orange_box -> Eng "VModelInfoServer002" -> ~ is_game "pm" "DT_PMPlayerResource" -> engine_is Episode2
  | e_eye : orange_box -> ~ Eng "VModelInfoServer002" -> Eng "VModelInfoServer003" -> Eng "VFileSystem017" -> engine_is EYE
  | e_css : valve_ob -> is_css -> engine_is CSS
  | e_tf2 : valve_ob -> ~ is_css -> is_tf -> engine_is TF2
  | e_dods : valve_ob -> ~ is_css -> ~ is_tf -> is_dod -> engine_is DODS
  | e_hl2dm : valve_ob -> ~ is_css -> ~ is_tf -> ~ is_dod -> named "hl2mp" -> engine_is HL2DM
  | e_pvkii : valve_ob -> ~ is_css -> ~ is_tf -> ~ is_dod -> named "pvkii" -> engine_is PVKII
  | e_mock : valve_ob -> ~ is_css -> ~ is_tf -> ~ is_dod -> named "." -> Eng "MOCK_ENGINE" -> engine_is Mock
  | e_hl2dm_like : valve_ob -> ~ is_css -> ~ is_tf -> ~ is_dod -> ~ named "hl2mp" -> ~ named "pvkii" ->
            ~ (named "." /\ Eng "MOCK_ENGINE") -> Srv "ServerGameClients005" -> engine_is HL2DM
  | e_sdk : valve_ob -> ~ is_css -> ~ is_tf -> ~ is_dod -> ~ named "hl2mp" -> ~ named "pvkii" ->
            ~ (named "." /\ Eng "MOCK_ENGINE") -> ~ Srv "ServerGameClients005" -> engine_is SDK2013
  | e_darkm : old -> named "." -> engine_is DarkMessiah
  | e_ep1 : old -> ~ named "." -> engine_is Episode1
  | e_unknown : ~ f023 -> ~ f022 -> ~ (orange_box /\ (Eng "VModelInfoServer002" \/ Eng "VModelInfoServer003")) -> ~ old ->
            engine_is UNKNOWN.
End Table.

(** The game's directory name *)
Inductive game_named (args : list str) (appid : option N) (max : nat) : str -> Prop :=
| gn_arg v : arg_value args (list_ascii_of_string "-game") (Some (Some v)) -> firstn max v <> [] ->
             game_named args appid max (firstn max v)
| gn_bare r : arg_value args (list_ascii_of_string "-game") (Some r) -> (r = None \/ exists v, r = Some v /\ firstn max v = []) ->
             game_named args appid max (list_ascii_of_string ".")
| gn_app n g : arg_value args (list_ascii_of_string "-game") None -> appid = Some n ->
             In (n, g) [(570%N, "dota"); (730%N, "csgo"); (1422450%N, "citadel")] ->
             game_named args appid max (list_ascii_of_string g)
| gn_none : arg_value args (list_ascii_of_string "-game") None ->
             (forall n, appid = Some n -> ~ In n [570%N; 730%N; 1422450%N]) ->
             game_named args appid max (list_ascii_of_string ".").

(** The core library that is made for each engine. *)
Definition library_of (b : backend) : option string :=
  match b with
  | Episode1 => Some "2.ep1" | DarkMessiah => Some "2.darkm" | Episode2 => Some "2.ep2" | BloodyGoodTime => Some "2.bgt"
  | EYE => Some "2.eye" | CSS => Some "2.css" | Episode2Valve_OBSOLETE => Some "2.ep2v"
  | Left4Dead => Some "2.l4d" | Left4Dead2 => Some "2.l4d2" | AlienSwarm => Some "2.swarm" | Portal2 => Some "2.portal2"
  | CSGO => Some "2.csgo" | DOTA => Some "2.dota" | HL2DM => Some "2.hl2dm" | DODS => Some "2.dods" | TF2 => Some "2.tf2"
  | NuclearDawn => Some "2.nd" | SDK2013 => Some "2.sdk2013" | Blade => Some "2.blade" | Insurgency => Some "2.insurgency"
  | Contagion => Some "2.contagion" | BMS => Some "2.bms" | DOI => Some "2.doi" | Mock => Some "2.mock" | PVKII => Some "2.pvkii"
  | MCV => Some "2.mcv" | CS2 => Some "2.cs2" | Deadlock => Some "2.deadlock" | UNKNOWN => None
  end.
