(** Model of the console command "meta" and of its client variant
    (core/metamod_console.cpp 93-728), on top of the plugin manager (PlugModel)
    and of GetFullPluginPath (PlFileModel).

    Simplified: of a reply we keep which message it is and the values in it; the
    texts of fixed messages are left out, but the lines of "list" are built byte
    by byte in their array.  The texts of "credits", "version" and "game" are one
    value each.  atoi, isalpha and printf are those of glibc in the "C" locale.
    What plugins and files answer is in [env]. *)
From Coq Require Import List ZArith Bool Arith Ascii String DecimalString.
From Verif Require Import ListModel StrModel PlugModel PlFileModel.
Import ListNotations.
Local Open Scope list_scope.
Local Open Scope nat_scope.
Notation length := List.length.

Definition w_ (s : string) : str := list_ascii_of_string s.

(** atoi of glibc: (int) strtol (s, NULL, 10).  strtol skips white space, takes a
    sign and digits and saturates at the bounds of long; the conversion to int
    keeps the low 32 bits. *)
Definition digit (c : ascii) : option Z :=
  let n := nat_of_ascii c in
  if (48 <=? n) && (n <=? 57) then Some (Z.of_nat n - 48)%Z else None.
Fixpoint digits (acc : Z) (s : str) : Z :=
  match s with
  | [] => acc
  | c :: s => match digit c with Some d => digits (10 * acc + d)%Z s | None => acc end
  end.
Definition strtol (s : str) : Z :=
  let s := drop_space s in
  let v := match s with
           | c :: r => if Ascii.eqb c "-" then (- digits 0 r)%Z
                       else if Ascii.eqb c "+" then digits 0 r else digits 0 s
           | [] => 0%Z
           end in
  Z.max (- 2 ^ 63) (Z.min (2 ^ 63 - 1) v).
Definition int32 (z : Z) : Z := ((z + 2 ^ 31) mod 2 ^ 32 - 2 ^ 31)%Z.
Definition atoi (s : str) : Z := int32 (strtol s).

(** printf "%d" and "%02d" *)
Definition dec (z : Z) : str := w_ (NilEmpty.string_of_int (Z.to_int z)).
Definition dec02 (z : Z) : str :=
  if (0 <=? z)%Z && (z <? 10)%Z then "0"%char :: dec z
  else dec z.

(** What a command finds around it. *)
Record env := mkEnv {
  e_bridged : bool;               (* mm_IsVspBridged *)
  e_complete : bool;              (* mm_IsVspLoadComplete *)
  e_dir : str;                    (* GetBaseDir *)
  e_exists : str -> bool;         (* files, for GetFullPluginPath *)
  e_junk : buf;                   (* the bytes of full_path and buffer before *)
  e_name : nat -> str;            (* GetName of the plugin with this interface; empty: NULL or empty *)
  e_version : nat -> str;
  e_author : nat -> str;
  e_running : nat -> bool;        (* QueryRunning *)
  e_msg : nat -> option str;      (* what it left in run_msg; None: nothing *)
  e_li : loadinfo;                (* what the loaded file does *)
  e_cb : cb;                      (* what the callback of the plugin does *)
  e_cbs : nat -> cb;              (* for "clear" *)
  e_refresh : list op;            (* the loads of mm_LoadPlugins: see PlFileModel, VdfModel *)
  e_refresh_al : list (str * str) (* and its aliases *)
}.

Inductive istate := IPaused | IRunning | IStopped (msg : str) | ILoading.
Inductive reply :=
| PMap                                       (* "You must change the map ..." *)
| PMenu | PCredits | PVersion | PGame | PRefresh
| PUsage (cmd : str)
| PNone                                      (* "No plugins loaded." *)
| PList (count : Z) (lines : list str)
| PNotFound (id : Z)                         (* "Plugin %d not found." *)
| PNotLoaded (id : Z)                        (* "Plugin %d is not loaded." *)
| PCons (name : str) (cons : list nat)       (* cmds, cvars *)
| PInfo (id : Z) (state : option istate) (file : str)    (* None: "is not loaded" *)
| PPaused (id : Z) | PPauseFailed
| PUnpaused (id : Z) | PUnpauseFailed
| PLoaded (name : str) (id : Z)              (* "loaded with id" *)
| PAlready (name : str) (id : Z)             (* "is already loaded as" *)
| PLoadFailed (file : str)
| PUnloaded (id : Z) | PUnloadFailed
| PNoFile (path : str)                       (* "Plugin \"%s\" not found." *)
| PForced (id : Z) | PForceFailed
| PCleared | PResisted
| PRetried (id : Z) | PRetryFailed
| PAliasSet (alias value : str) | PAliasDeleted (alias : str)
| PAliasIs (alias value : str) | PAliasNot (alias : str)
| PAliases (l : list (str * str)).

(** UTIL_Format (&buffer[len], sizeof (buffer) - len, ...): the array and the
    new value of len.  [None]: outside the array. *)
Definition put (bl : buf * nat) (text : str) : option (buf * nat) :=
  let (b, len) := bl in
  do r <- FormatArgs (skipn len b) (length b - len) (Formatted text) ;
  Some (firstn len b ++ fst r, len + snd r).
Definition put_if (bl : buf * nat) (pre text post : str) : option (buf * nat) :=
  match text with [] => Some bl | _ => put bl (pre ++ text ++ post) end.

(** 204-218, 680-691: what is appended for a plugin with an interface *)
Definition put_api (e : env) (p : plugin) (api : nat) (bl : buf * nat) : option (buf * nat) :=
  do bl <- put bl (w_ " " ++ match e_name e api with [] => p_file p | n => n end) ;
  do bl <- put_if bl (w_ " (") (e_version e api) (w_ ")") ;
  put_if bl (w_ " by ") (e_author e api) [].
(** 193-202; [b]: the array of 256 bytes *)
Definition line_head (e : env) (b : buf) (p : plugin) : option (buf * nat) :=
  do x <- p_status p ;
  match x with
  | Running => put (b, 0) (w_ "  [" ++ dec02 (p_id p) ++ w_ "]")
  | _ => do t <- GetStatusText p (match p_api p with Some a => e_running e a | None => false end) ;
         put (b, 0) (w_ "  [" ++ dec02 (p_id p) ++ w_ "] <" ++ w_ t ++ w_ ">")
  end.
(** 203-220 *)
Definition line_tail (e : env) (s : st) (p : plugin) (bl : buf * nat) : option (buf * nat) :=
  match p_api p with
  | Some api => if callable s p then put_api e p api bl else None
  | None => Some bl
  end.
Definition list_line (e : env) (s : st) (b : buf) (p : plugin) : option (buf * str) :=
  do bl <- line_head e b p ;
  do bl <- line_tail e s p bl ;
  do t <- cstr (fst bl) ;
  Some (fst bl, t).
Fixpoint list_lines (e : env) (s : st) (b : buf) (l : list nat) : option (list str) :=
  match l with
  | [] => Some []
  | a :: l => do p <- getp s a ;
              do r <- list_line e s b p ;
              do ts <- list_lines e s (fst r) l ;
              Some (snd r :: ts)
  end.

(** full_path: GetFullPluginPath into an array of 255 bytes *)
Definition full_path (e : env) (file : str) : option str :=
  do r <- GetFullPluginPath (e_exists e) (e_dir e) file (firstn 255 (e_junk e)) 255 ;
  cstr (fst r).
(** LookupAlias: the alias or the name itself (404-408, 517-522) *)
Definition resolve_alias (al : aliases) (file : str) : str :=
  match LookupAlias al file with Some v => v | None => file end.

(** 527-536: the first plugin with exactly this file *)
Fixpoint find_file (s : st) (l : list nat) (path : str) : option (option Z) :=
  match l with
  | [] => Some None
  | a :: l => do p <- getp s a ; if str_eqb (p_file p) path then Some (Some (p_id p)) else find_file s l path
  end.

(** The branches of Command_Meta.  [a2]: GetArg (2), if args >= 2. *)
Definition cmd_list (e : env) (s : st) : option reply :=                     (* 168-223 *)
  match plugins s with
  | [] => Some PNone
  | _ => do ls <- list_lines e s (firstn 256 (e_junk e)) (plugins s) ;
         Some (PList (Z.of_nat (length (plugins s))) ls)
  end.
Definition cmd_cons (cmd : str) (e : env) (s : st) (a2 : option str) : option reply :=   (* 224-297 *)
  match a2 with
  | None => Some (PUsage cmd)
  | Some arg =>
      do a <- find_id s (plugins s) (atoi arg) ;
      match a with
      | None => Some (PNotFound (atoi arg))
      | Some a => do p <- getp s a ;
                  match p_api p with
                  | None => Some (PNotLoaded (atoi arg))
                  | Some api => if callable s p then Some (PCons (e_name e api) (p_cons p)) else None
                  end
      end
  end.
Definition cmd_info (e : env) (s : st) (a2 : option str) : option reply :=   (* 298-353 *)
  match a2 with
  | None => Some (PUsage (w_ "info"))
  | Some arg =>
      do a <- find_id s (plugins s) (atoi arg) ;
      match a with
      | None => Some (PNotFound (atoi arg))
      | Some a =>
          do p <- getp s a ;
          match p_api p with
          | None => Some (PInfo (atoi arg) None (p_file p))
          | Some api =>
              if callable s p then
                do x <- p_status p ;
                do st <- match x with
                         | Paused => Some IPaused
                         | Running => if e_running e api then Some IRunning
                                      else do m <- e_msg e api ; Some (IStopped m)   (* run_msg is printed *)
                         | _ => Some ILoading                                        (* nothing is said *)
                         end ;
                Some (PInfo (atoi arg) (Some st) (p_file p))
              else None
          end
      end
  end.
Definition cmd_pause (e : env) (s : st) (a2 : option str) : option (st * reply) :=       (* 354-378 *)
  match a2 with
  | None => Some (s, PUsage (w_ "pause"))
  | Some arg => do r <- Pause s (atoi arg) (e_cb e) ;
                Some (fst r, if snd r then PPaused (atoi arg) else PPauseFailed)
  end.
Definition cmd_unpause (e : env) (s : st) (a2 : option str) : option (st * reply) :=     (* 379-403 *)
  match a2 with
  | None => Some (s, PUsage (w_ "unpause"))
  | Some arg => do r <- Unpause s (atoi arg) (e_cb e) ;
                Some (fst r, if snd r then PUnpaused (atoi arg) else PUnpauseFailed)
  end.
Definition cmd_load (e : env) (s : st) (al : aliases) (a2 : option str) : option (st * reply) :=   (* 404-450 *)
  match a2 with
  | None => Some (s, PUsage (w_ "load"))
  | Some arg =>
      let file := resolve_alias al arg in
      do path <- full_path e file ;
      do s <- resolve_pending true s ;
      do r <- Load s path (e_li e) ;
      let '(s, (id, already)) := r in
      do a <- find_id s (plugins s) id ;
      match a with
      | None => Some (s, PLoadFailed file)
      | Some a =>
          do p <- getp s a ;
          do x <- p_status p ;
          if (id <? 1)%Z || negb (loaded x) then Some (s, PLoadFailed file)
          else
            do api <- p_api p ;
            if callable s p
            then Some (s, (if already then PAlready else PLoaded) (e_name e api) (p_id p))
            else None
      end
  end.
Definition cmd_alias (al : aliases) (a2 a3 : option str) : aliases * reply :=             (* 451-505 *)
  match a2, a3 with
  | Some alias, Some value =>
      (SetAlias al alias value,
       match value with [] => PAliasDeleted alias | _ => PAliasSet alias value end)
  | Some alias, None =>
      (al, match LookupAlias al alias with Some v => PAliasIs alias v | None => PAliasNot alias end)
  | None, _ => (al, PAliases al)
  end.
Definition is_letter (s : str) : bool := match s with c :: _ => isalpha c | [] => false end.
Definition cmd_unload (e : env) (s : st) (al : aliases) (a2 : option str) : option (st * reply) :=  (* 506-557 *)
  match a2 with
  | None => Some (s, PUsage (w_ "unload"))
  | Some arg =>
      let go id := do r <- Unload s id false (e_cb e) ;
                   Some (fst r, if snd r then PUnloaded id else PUnloadFailed) in
      if (atoi arg =? 0)%Z && is_letter arg then
        do path <- full_path e (resolve_alias al arg) ;
        do id <- find_file s (plugins s) path ;
        match id with
        | Some id => if (id =? 0)%Z then Some (s, PNoFile path) else go id
        | None => Some (s, PNoFile path)
        end
      else go (atoi arg)
  end.
Definition cmd_force (e : env) (s : st) (a2 : option str) : option (st * reply) :=        (* 558-582 *)
  match a2 with
  | None => Some (s, PUsage (w_ "force_unload"))
  | Some arg => do r <- Unload s (atoi arg) true (e_cb e) ;
                Some (fst r, if snd r then PForced (atoi arg) else PForceFailed)
  end.
Definition cmd_clear (e : env) (s : st) : option (st * reply) :=                          (* 583-594 *)
  do r <- UnloadAll (length (plugins s)) s (e_cbs e) ;
  do r <- r ;
  Some (fst r, if snd r then PCleared else PResisted).
Definition cmd_retry (e : env) (s : st) (a2 : option str) : option (st * reply) :=        (* 595-619 *)
  match a2 with
  | None => Some (s, PUsage (w_ "retry"))
  | Some arg => do r <- Retry s (atoi arg) (e_li e) (e_cb e) ;
                Some (fst r, if snd r then PRetried (atoi arg) else PRetryFailed)
  end.
(** mm_LoadPlugins (145-163) *)
Definition cmd_refresh (e : env) (s : st) (al : aliases) : option (st * aliases) :=
  do r <- run s (e_refresh e) ;
  Some (fst r, fold_left (fun m x => SetAlias m (fst x) (snd x)) (e_refresh_al e) al).

(** Command_Meta (93-645); [args]: GetArg (1), GetArg (2), ... *)
Definition meta (e : env) (s : st) (al : aliases) (args : list str) : option (st * aliases * reply) :=
  let a2 := nth_error args 1 in
  let say r := Some (s, al, r) in
  let ask r := do r <- r ; Some (s, al, r) in
  let act r := do r <- r ; Some (fst r, al, snd r) in
  if e_bridged e && negb (e_complete e) then say PMap
  else
  match args with
  | [] => say PMenu
  | c :: _ =>
      if str_eqb c (w_ "credits") then say PCredits
      else if str_eqb c (w_ "version") then say PVersion
      else if str_eqb c (w_ "game") then say PGame
      else if str_eqb c (w_ "refresh") then do r <- cmd_refresh e s al ; Some (fst r, snd r, PRefresh)
      else if str_eqb c (w_ "list") then ask (cmd_list e s)
      else if str_eqb c (w_ "cmds") then ask (cmd_cons c e s a2)
      else if str_eqb c (w_ "cvars") then ask (cmd_cons c e s a2)
      else if str_eqb c (w_ "info") then ask (cmd_info e s a2)
      else if str_eqb c (w_ "pause") then act (cmd_pause e s a2)
      else if str_eqb c (w_ "unpause") then act (cmd_unpause e s a2)
      else if str_eqb c (w_ "load") then act (cmd_load e s al a2)
      else if str_eqb c (w_ "alias") || str_eqb c (w_ "aliases")
      then let r := cmd_alias al a2 (nth_error args 2) in Some (s, fst r, snd r)
      else if str_eqb c (w_ "unload") then act (cmd_unload e s al a2)
      else if str_eqb c (w_ "force_unload") then act (cmd_force e s a2)
      else if str_eqb c (w_ "clear") then act (cmd_clear e s)
      else if str_eqb c (w_ "retry") then act (cmd_retry e s a2)
      else say PMenu
  end.

(** Command_ClientMeta (647-728); [None] inside: not our command *)
Definition client_line (e : env) (b : buf) (num : Z) (p : plugin) (api : nat) : option (buf * str) :=
  do bl <- put (b, 0) (w_ "  [" ++ dec02 num ++ w_ "]") ;
  do bl <- put_api e p api bl ;
  do t <- cstr (fst bl) ;
  Some (fst bl, t).
Fixpoint client_lines (e : env) (s : st) (b : buf) (num : Z) (l : list nat) : option (list str) :=
  match l with
  | [] => Some []
  | a :: l =>
      do p <- getp s a ;
      do x <- p_status p ;
      match x, p_api p with
      | Running, Some api =>
          if callable s p then
            if e_running e api then
              do r <- client_line e b (num + 1) p api ;
              do ts <- client_lines e s (fst r) (num + 1) l ;
              Some (snd r :: ts)
            else client_lines e s b num l
          else None
      | _, _ => client_lines e s b num l
      end
  end.
Definition client_meta (e : env) (s : st) (cmd : str) (args : list str) : option (option reply) :=
  if str_eqb cmd (w_ "meta") then
    match args with
    | [c] =>
        if str_eqb c (w_ "credits") then Some (Some PCredits)
        else if str_eqb c (w_ "version") then Some (Some PVersion)
        else if str_eqb c (w_ "list") then
          do ls <- client_lines e s (firstn 256 (e_junk e)) 0 (plugins s) ;
          Some (Some (match ls with [] => PNone | _ => PList (Z.of_nat (length ls)) ls end))
        else Some (Some PMenu)
    | _ => Some (Some PMenu)
    end
  else Some None.
