(** What the loading of plugins does and reports. *)
From Coq Require Import List Bool Arith ZArith Ascii String.
From Verif Require Import ListModel StrModel StrSpec RelSpec PlFileModel PlFileSpec PlugModel PlugSpec VdfModel.
Import ListNotations.
Local Open Scope list_scope.
Local Open Scope nat_scope.
Notation length := List.length.

(** A file name with the extension "vdf" in any case *)
Definition vdf_name (n : str) : bool :=
  match rev n with
  | f :: d :: v :: p :: _ =>
      Ascii.eqb p "." && (Ascii.eqb v "v" || Ascii.eqb v "V") && (Ascii.eqb d "d" || Ascii.eqb d "D") && (Ascii.eqb f "f" || Ascii.eqb f "F")
  | _ => false
  end.

(** A plugin from the file is loaded, or is in the list at all. *)
Definition running (s : st) (f : str) : Prop := exists p, In p (listed s) /\ is_loaded p /\ same_path f (p_file p).
Definition known (s : st) (f : str) : Prop := exists p, In p (listed s) /\ same_path f (p_file p).
Definition loadedb (p : plugin) : bool := match p_status p with Some Running | Some Paused => true | _ => false end.
Definition n_running (s : st) : nat := length (filter loadedb (listed s)).

(** How a request to load the plugin [f] ended: the VDF file named none; it is new;
    it was loaded already; it is in the list, but is not loaded, since an earlier
    attempt failed.  [ok]: it is loaded now. *)
Inductive outcome := Nothing | Fresh (ok : bool) | Present | Broken (ok : bool).
Inductive outcome_of (s : st) (f : str) (s' : st) : outcome -> Prop :=
| oo_fresh ok : ~ known s f -> (ok = true <-> running s' f) -> outcome_of s f s' (Fresh ok)
| oo_present : running s f -> s' = s -> outcome_of s f s' Present
| oo_broken ok : known s f -> ~ running s f -> (ok = true <-> running s' f) -> outcome_of s f s' (Broken ok).

Definition newly (o : outcome) : bool := match o with Fresh true => true | _ => false end.
Definition present (o : outcome) : bool := match o with Present => true | _ => false end.
Definition revived (o : outcome) : bool := match o with Broken true => true | _ => false end.
Definition broken (o : outcome) : bool := match o with Broken _ => true | _ => false end.
Definition failed (o : outcome) : bool := match o with Fresh false | Broken false => true | _ => false end.
Definition count (f : outcome -> bool) (l : list outcome) : nat := length (filter f l).

(** The path of a plugin; at most [k] characters of it. *)
Inductive plugin_path (stat_ : str -> bool) (mod_path : str) (k : nat) (file : str) : str -> Prop :=
| pp_absolute : PlFileSpec.absolute file -> plugin_path stat_ mod_path k file (firstn k file)
| pp_extension e : ~ PlFileSpec.absolute file -> extension file e ->
    plugin_path stat_ mod_path k file (slashed (firstn k (mod_path ++ "/"%char :: file)))
| pp_none : ~ PlFileSpec.absolute file -> (forall e, ~ extension file e) ->
    let full ext := slashed (firstn k (mod_path ++ "/"%char :: file ++ list_ascii_of_string ext)) in
    plugin_path stat_ mod_path k file (if stat_ (full ".x64.so"%string) then full ".x64.so"%string else full ".so"%string).

(** A name for a plugin that the code can deal with *)
Definition sane (f : str) : Prop := f <> [] /\ ~ In NUL f /\ (PlFileSpec.absolute f -> ~ In "%"%char f).

(** Requests one after the other *)
Inductive visits {X} (V : world -> X -> world -> outcome -> Prop) : world -> list X -> world -> list outcome -> Prop :=
| vs_nil w : visits V w [] w []
| vs_cons w x w1 o l w2 os : V w x w1 o -> visits V w1 l w2 os -> visits V w (x :: l) w2 (o :: os).

(** A plugin file: the alias is set, the plugin is loaded, a failure is reported. *)
Definition request (stat_ : str -> bool) (mod_path : str) (k : nat) (w : world) (alias file : str) (w' : world) (o : outcome) : Prop :=
  als w' = (match alias with [] => als w | _ => SetAlias (als w) alias file end) /\
  (exists full, plugin_path stat_ mod_path k file full /\ outcome_of (mgr w) full (mgr w') o) /\
  out w' = out w ++ (if failed o then [MFailed file] else []).

(** The file [n] in [dir]: it is opened relative to the game directory; at most 31
    characters of the alias and 254 of the file are used. *)
Definition vdf_visit (stat_ : str -> bool) (baseFs : bool) (kv : str -> option (option str * option str)) (mod_path dir : str)
  (w : world) (n : str) (w' : world) (o : outcome) : Prop :=
  exists rel, denote (mod_path ++ "/"%char :: rel) = denote (dir ++ "/"%char :: n) /\
    match (if baseFs then kv rel else None) with
    | Some (Some f, a) =>
        request stat_ mod_path 254 w (firstn 31 (match a with Some a => a | None => [] end)) (firstn 254 f) w' o
    | _ => w' = w /\ o = Nothing
    end.

(** A line of the plugin list *)
Definition line_visit (stat_ : str -> bool) (mod_path : str) (PATH_SIZE : nat) (w : world) (e : pev) (w' : world) (o : outcome) : Prop :=
  match e with
  | EAlias a v => w' = set_als (SetAlias (als w) a v) w /\ o = Nothing
  | ELoad f => request stat_ mod_path (PATH_SIZE - 1) w [] f w' o
  end.

(** Libraries that behave: their Load unregisters nothing and no object is given
    out twice. *)
Definition behaves (lib : st -> str -> loadinfo) : Prop :=
  forall s f, no_unreg (fst (li_load (lib s f))) /\ api_fresh s (lib s f).

(** A name of a file in [dir] that fits the arrays *)
Definition fits (mod_path dir : str) (MAX_PATH : nat) (n : str) : Prop :=
  ~ In NUL n /\ ~ In "\"%char n /\ length dir + 1 + length n < MAX_PATH /\ 3 * length mod_path + (length dir + 1 + length n) + 10 <= MAX_PATH * 2.
(** VDF files with sane plugin names *)
Definition kv_ok (kv : str -> option (option str * option str)) : Prop :=
  forall rel f a, kv rel = Some (Some f, a) -> sane (firstn 254 f) /\ ~ In NUL f /\ (forall x, a = Some x -> ~ In NUL x).
Definition sane_event (e : pev) : Prop := match e with ELoad f => sane f | EAlias _ _ => True end.

(** A plugin which is loaded before is loaded afterwards: same id, file and status. *)
Definition kept (s s' : st) : Prop :=
  forall p, In p (listed s) -> is_loaded p ->
    exists p', In p' (listed s') /\ p_id p' = p_id p /\ p_file p' = p_file p /\ p_status p' = p_status p.
