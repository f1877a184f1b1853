(** Model of engine detection.
    Sources: /repo/loader/loader.h 81-112 (MetamodBackend), /repo/loader/loader.cpp 78-108
    (backend_names), 121-166 (mm_LoadMetamodLibrary), 214-249 (mm_GetGameName), 251-421
    (mm_DetermineBackendS1); /repo/loader/gamedll.cpp 361-374 (choice for Source 2).  Linux.
    A factory is the set of the interfaces it provides, mm_FindPattern the set of the
    patterns which occur in the game library (its own model is in StrModel). *)
From Coq Require Import List Bool Arith Ascii String NArith.
From Verif Require Import StrModel.
Import ListNotations.
Local Open Scope char_scope.
Local Open Scope string_scope.
Local Open Scope nat_scope.
Local Notation "'do' x <- a ; b" := (match a with Some x => b | None => None end)
  (at level 200, x pattern, a at level 100, b at level 200).
Notation length := List.length.

(** loader.h 81-112 *)
Inductive backend :=
| Episode1 | DarkMessiah | Episode2 | BloodyGoodTime | EYE | CSS | Episode2Valve_OBSOLETE | Left4Dead
| Left4Dead2 | AlienSwarm | Portal2 | CSGO | DOTA | HL2DM | DODS | TF2 | NuclearDawn | SDK2013 | Blade
| Insurgency | Contagion | BMS | DOI | Mock | PVKII | MCV | CS2 | Deadlock | UNKNOWN.

(** the values of the enumerators *)
Definition value (b : backend) : nat :=
  match b with
  | Episode1 => 0 | DarkMessiah => 1 | Episode2 => 2 | BloodyGoodTime => 3 | EYE => 4 | CSS => 5
  | Episode2Valve_OBSOLETE => 6 | Left4Dead => 7 | Left4Dead2 => 8 | AlienSwarm => 9 | Portal2 => 10
  | CSGO => 11 | DOTA => 12 | HL2DM => 13 | DODS => 14 | TF2 => 15 | NuclearDawn => 16 | SDK2013 => 17
  | Blade => 18 | Insurgency => 19 | Contagion => 20 | BMS => 21 | DOI => 22 | Mock => 23 | PVKII => 24
  | MCV => 25 | CS2 => 26 | Deadlock => 27 | UNKNOWN => 28
  end.

(** loader.cpp 78-108 *)
Definition backend_names : list string :=
  ["2.ep1"; "2.darkm"; "2.ep2"; "2.bgt"; "2.eye"; "2.css"; "2.ep2v"; "2.l4d"; "2.l4d2"; "2.swarm";
   "2.portal2"; "2.csgo"; "2.dota"; "2.hl2dm"; "2.dods"; "2.tf2"; "2.nd"; "2.sdk2013"; "2.blade";
   "2.insurgency"; "2.contagion"; "2.bms"; "2.doi"; "2.mock"; "2.pvkii"; "2.mcv"; "2.cs2"; "2.deadlock"].

Section Detect.
  Variables (engineFactory serverFactory mm_FindPattern : string -> bool) (game_name : str).
  Definition game (s : string) : bool := str_eqb game_name (list_ascii_of_string s).

  (** 363-402: behind the label TF2branch *)
  Definition TF2branch : backend :=
    if game "cstrike" || mm_FindPattern "DT_CSPlayerResource" then CSS
    else if game "tf" || mm_FindPattern "DT_TFPlayerResource" then TF2
    else if game "dod" || mm_FindPattern "DT_DODPlayerResource" then DODS
    else if game "hl2mp" then HL2DM
    else if game "pvkii" then PVKII
    else if game "." && engineFactory "MOCK_ENGINE" then Mock
    else if serverFactory "ServerGameClients005" then HL2DM
    else SDK2013.

  (** 251-421 *)
  Definition mm_DetermineBackendS1 : backend :=
    if engineFactory "VEngineServer023" then
      if negb (engineFactory "EngineTraceServer004") then TF2branch
      else if engineFactory "IEngineSoundServer004" then
        if game "doi" || mm_FindPattern "doi_gamerules_data" then DOI else Insurgency
      else if serverFactory "ServerGameDLL010" then BMS
      else if serverFactory "VSERVERTOOLS003" then Blade
      else if game "vietnam" then MCV
      else CSGO
    else if engineFactory "VEngineServer022" && engineFactory "VEngineCvar007" then
      if engineFactory "EngineTraceServer004" then
        if engineFactory "XboxSystemInterface001" then AlienSwarm
        else if game "portal2" || mm_FindPattern "baseportalcombatweapon" then Portal2
        else Blade
      else if engineFactory "VPrecacheSystem001" then
        if serverFactory "ServerGameTags002" then NuclearDawn
        else if game "contagion" || mm_FindPattern "Contagion_Chat_All" then Contagion
        else Left4Dead2
      else Left4Dead
    else if engineFactory "VEngineServer021" then
      if engineFactory "VEngineCvar004" then
        if engineFactory "VModelInfoServer002" then
          if game "pm" || mm_FindPattern "DT_PMPlayerResource" then BloodyGoodTime else Episode2
        else if engineFactory "VModelInfoServer003" then
          if engineFactory "VFileSystem017" then EYE else TF2branch
        else UNKNOWN
      else if engineFactory "VModelInfoServer001" &&
              (engineFactory "VEngineCvar003" || engineFactory "VEngineCvar002") then
        if game "." then DarkMessiah else Episode1
      else UNKNOWN
    else UNKNOWN.
End Detect.

(** stricmp (strcasecmp) in the "C" locale *)
Definition tolower (c : ascii) : ascii :=
  let n := nat_of_ascii c in if (65 <=? n) && (n <=? 90) then ascii_of_nat (n + 32) else c.
Definition stricmp_eq (a b : str) : bool := str_eqb (map tolower a) (map tolower b).

(** gamedll.cpp 361-374 *)
Definition backend_s2 (game_name : str) : backend :=
  if stricmp_eq (list_ascii_of_string "citadel") game_name then Deadlock
  else if stricmp_eq (list_ascii_of_string "csgo") game_name then CS2
  else DOTA.

(** mm_GetGameName (214-249); [appid]: strtoul of the variable SteamAppId if it is set *)
Definition copy_app (appid : option N) (b : buf) (size : nat) : option buf :=
  match appid with
  | Some 570%N => strncpy b (list_ascii_of_string "dota") size
  | Some 730%N => strncpy b (list_ascii_of_string "csgo") size
  | Some 1422450%N => strncpy b (list_ascii_of_string "citadel") size
  | _ => Some b
  end.
Definition mm_GetGameName (args : option (list str)) (appid : option N) (b : buf) (size : nat) : option buf :=
  do (found, ob) <- mm_GetCommandArgument args (list_ascii_of_string "-game") (Some b) size ;
  do b <- ob ;
  do b <- (if found : bool then Some b else copy_app appid b size) ;
  do c <- nth_error b 0 ;
  if Ascii.eqb c NUL then strncpy b (list_ascii_of_string ".") size else Some b.

(** strrchr for the separator: the text behind the last one *)
Fixpoint after_last_slash (s : str) : option str :=
  match s with
  | [] => None
  | c :: s' => match after_last_slash s' with
               | Some r => Some r
               | None => if Ascii.eqb c SEP then Some s' else None
               end
  end.

(** mm_LoadMetamodLibrary (121-166): the path which it loads.  [own]: what
    mm_GetFileOfAddress finds, [size]: of the array.  Outer [None]: undefined, inner:
    returned false. *)
Definition mm_MetamodLibraryPath (own : option str) (size : nat) (b : nat) : option (option str) :=
  match own with
  | None => Some None
  | Some p =>
      match after_last_slash p with
      | None => Some None
      | Some file =>
          let len := length p in let temp_len := length file in
          if len <? temp_len then Some None
          else
            do name <- nth_error backend_names b ;
            let off := len - temp_len in
            let text := (list_ascii_of_string "metamod." ++ list_ascii_of_string name ++ list_ascii_of_string ".so")%list in
            Some (Some (firstn off p ++ firstn (size - off - 1) text))%list
      end
  end.
