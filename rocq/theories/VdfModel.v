(** Model of the loading of the plugins at start and by "meta refresh".
    Sources: /repo/core/metamod.cpp 248-346 (LoadPluginsFromFile: what is done with the
    lines), 1197-1224 (ProcessVDF), 1226-1307 (LoadVDFPluginsFromDir), 1309-1329
    (mm_LoadPlugins); /repo/core/provider/source/provider_source.cpp 157-205 and
    /repo/core/provider/source2/provider_source2.cpp 168-208 (ProcessVDF); Linux build.
    The parsing of the lines is PlFileModel.v, UTIL_Relatize RelModel.v, the plugin
    manager PlugModel.v.
    Simplified: the KeyValues parser of the engine is the function [kv]; an entry of a
    directory is its name; a line is parsed before the loads of the lines above it
    are made (the parsing does not look at the plugins); the bytes of an array before
    it is written are [junk]. *)
From Coq Require Import List Bool Arith ZArith Ascii String.
From Verif Require Import ListModel StrModel RelModel PlFileModel EngModel PlugModel.
Import ListNotations.
Local Open Scope list_scope.
Local Open Scope nat_scope.
Local Notation "'do' x <- a ; b" := (match a with Some x => b | None => None end)
  (at level 200, x pattern, a at level 100, b at level 200).
Notation length := List.length.

(** What is logged (mm_LogMessage). *)
Inductive msg :=
| MFailed (file : str)                                   (* 335, 1219 *)
| MNoDir (dir : str)                                     (* 1277 *)
| MReport (total : nat) (plural : bool) (skipped : nat). (* 1322-1325 *)

Record world := mkW { mgr : st; als : aliases; out : list msg }.
Definition set_mgr s w := mkW s (als w) (out w).
Definition set_als l w := mkW (mgr w) l (out w).
Definition tell m w := mkW (mgr w) (als w) (out w ++ [m]).

(** Pl_MinId (core/IPluginManager.h 46) *)
Definition Pl_MinId := 1%Z.

(** sizes of the arrays in ProcessVDF (1202) *)
Definition ALIAS_SIZE := 32.
Definition FILE_SIZE := 255.

Section Vdf.
Variable stat_ : str -> bool.                             (* stat, GetFullPluginPath *)
Variable access_ : str -> bool.                           (* PathExists, UTIL_Relatize *)
Variable baseFs : bool.                                   (* baseFs <> NULL *)
Variable kv : str -> option (option str * option str).    (* LoadFromFile; "file", "alias" *)
Variable lib : st -> str -> loadinfo.                     (* what the library at a path does *)
Variable mod_path : str.
Variables PATH_SIZE MAX_PATH : nat.
Variable junk : nat -> buf.

(** ProcessVDF of the providers (provider_source.cpp 157-205, provider_source2.cpp
    168-208): the texts in [path] and [alias]; [Some None]: it returned false *)
Definition provider_ProcessVDF (rel : str) : option (option (str * str)) :=
  if negb baseFs then Some None
  else match kv rel with
       | None | Some (None, _) => Some None
       | Some (Some f, a) =>
           do (fb, _) <- FormatArgs (junk FILE_SIZE) FILE_SIZE (Formatted f) ;
           do (ab, _) <- FormatArgs (junk ALIAS_SIZE) ALIAS_SIZE (Formatted (match a with Some a => a | None => [] end)) ;
           do f <- cstr fb ;
           do a <- cstr ab ;
           Some (Some (f, a))
       end.

(** GetFullPluginPath, Load and the test of the result (328-332, 1214-1217);
    [size]: of the array full_path.  The manager, whether it is loaded, [already]. *)
Definition load_plugin (s : st) (file : str) (size : nat) : option (st * (bool * bool)) :=
  do (fb, _) <- GetFullPluginPath stat_ mod_path file (junk size) size ;
  do full <- cstr fb ;
  do (s, (id, already)) <- Load s full (lib s full) ;
  if (id <? Pl_MinId)%Z then Some (s, (false, already))
  else
    do a <- find_id s (plugins s) id ;
    do a <- a ;                                           (* FindById (id)->m_Status *)
    do p <- getp s a ;
    do x <- p_status p ;
    Some (s, (loaded x, already)).

(** ProcessVDF (1197-1224): success, skipped *)
Definition process_vdf (w : world) (rel : str) : option (world * (bool * bool)) :=
  do r <- provider_ProcessVDF rel ;
  match r with
  | None => Some (w, (false, false))
  | Some (file, alias) =>
      let w := match alias with [] => w | _ => set_als (SetAlias (als w) alias file) w end in
      do (s, (good, already)) <- load_plugin (mgr w) file 255 ;
      let w := set_mgr s w in
      Some (if good then w else tell (MFailed file) w, (good, already))
  end.

(** the names that are passed over (1282-1291) *)
Definition DOT_VDF : str := [".";"v";"d";"f"]%char.
Definition is_vdf (name : str) : bool :=
  negb (str_eqb name ["."%char]) && negb (str_eqb name [".";"."]%char) &&
  (4 <=? length name) && stricmp_eq (skipn (length name - 4) name) DOT_VDF.

(** the loop over the directory (1280-1300); [rel]: the array relpath, which keeps
    its contents if UTIL_Relatize fails ([None]: nothing was written yet) *)
Fixpoint vdf_loop (w : world) (dir : str) (rel : option str) (names : list str) (total skipped : nat)
  : option (world * (nat * nat)) :=
  match names with
  | [] => Some (w, (total, skipped))
  | n :: names =>
      if negb (is_vdf n) then vdf_loop w dir rel names total skipped
      else
        do (pb, _) <- mm_PathFormat (junk MAX_PATH) MAX_PATH (Formatted (dir ++ "/"%char :: n)) ;
        do path <- cstr pb ;
        do r <- relatize access_ (MAX_PATH * 2) mod_path path ;
        let rel := match r with Some t => Some t | None => rel end in
        do t <- rel ;
        do (w, (success, skip)) <- process_vdf w t ;
        if skip then vdf_loop w dir rel names total (S skipped)
        else if success then vdf_loop w dir rel names (S total) skipped
        else vdf_loop w dir rel names total skipped
  end.

(** LoadVDFPluginsFromDir; [entries]: what readdir delivers, [None]: opendir fails *)
Definition LoadVDFPluginsFromDir (w : world) (dir : str) (entries : option (list str)) : option (world * (nat * nat)) :=
  match entries with
  | None => Some (tell (MNoDir dir) w, (0, 0))
  | Some names => vdf_loop w dir None names 0 0
  end.

(** LoadPluginsFromFile: what is done with the lines (315, 328-342) *)
Fixpoint file_events (w : world) (evs : list pev) (total skipped : nat) : option (world * (nat * nat)) :=
  match evs with
  | [] => Some (w, (total, skipped))
  | EAlias a v :: evs => file_events (set_als (SetAlias (als w) a v) w) evs total skipped
  | ELoad f :: evs =>
      do (s, (good, already)) <- load_plugin (mgr w) f PATH_SIZE ;
      let w := set_mgr s w in
      if good
      then if already then file_events w evs total (S skipped) else file_events w evs (S total) skipped
      else file_events (tell (MFailed f) w) evs total skipped
  end.
(** [contents]: of the file, [None]: fopen fails *)
Definition load_from_file (w : world) (contents : option str) : option (world * (nat * nat)) :=
  match contents with
  | None => Some (w, (0, 0))
  | Some c => do evs <- LoadPluginsFromFile (junk 255) c ; file_events w evs 0 0
  end.

(** mm_LoadPlugins (1309-1329) *)
Definition mm_LoadPlugins (w : world) (contents : option str) (dir : str) (entries : option (list str)) : option (world * nat) :=
  do (w, (ft, fs)) <- load_from_file w contents ;
  do (w, (vt, vs)) <- LoadVDFPluginsFromDir w dir entries ;
  let total := ft + vt in
  let skipped := fs + vs in
  Some (tell (MReport total ((total =? 0) || (1 <? total)) skipped) w, total).

End Vdf.
