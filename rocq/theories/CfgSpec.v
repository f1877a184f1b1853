(** Where plugins should be looked for. *)
From Coq Require Import List Bool String.
From Verif Require Import CfgModel.
Import ListNotations.
Local Open Scope string_scope.

(** The configured place: two names.  [v]: the values of the two variables. *)
Definition place := (string * string)%type.
Definition at_ (e : env) (p : place) : place := (mod_path e ++ "/" ++ fst p, mod_path e ++ "/" ++ snd p).
Definition defaults : place := ("addons/metamod/metaplugins.ini", "addons/metamod").

(** what the command line says about a variable *)
Definition said (e : env) (key : string) : option string :=
  match eng e with Source1 => if icvar e then cvarcmd e key else None | Source2 => parm e key end.
Definition over (e : env) (p : place) : place :=
  (match said e "mm_pluginsfile" with Some v => v | None => fst p end,
   match said e "mm_basedir" with Some v => v | None => snd p end).

(** The loads expected: [first]: the load of the start is still to come (server plugin); [skip]: the next end
    of a level loads nothing.  The first load goes to the place that the command line says, all others to
    where the variables say. *)
Fixpoint expect (e : env) (first skip : bool) (v : place) (l : list op) : list place :=
  match l with
  | [] => []
  | SetFile x :: l => expect e first skip (x, snd v) l
  | SetDir x :: l => expect e first skip (fst v, x) l
  | Refresh :: l => at_ e v :: expect e first skip v l
  | GameStarts :: l =>
      if first then at_ e (over e v) :: expect e false true v l else expect e first skip v l
  | LevelEnds :: l =>
      if first then at_ e (over e v) :: expect e false false v l
      else if skip then expect e false false v l
      else at_ e v :: expect e false false v l
  end.
Definition expected (e : env) (l : list op) : list place :=
  if vsp e then expect e true false defaults l
  else at_ e (over e defaults) :: expect e false true defaults l.

(** nobody sets a variable to the empty text *)
Definition nonempty (o : op) : Prop := o <> SetFile "" /\ o <> SetDir "".

(** the same place always: the variables say what the command line says, as if it had been executed *)
Definition changes (o : op) : bool := match o with SetFile _ | SetDir _ => true | _ => false end.
