(** The engine's list of console commands and variables, and how Metamod:Source
    puts things into it and takes them out.
    Modelled: core/provider/source/provider_source_console.cpp 36-180
    (RegisterConCommandBase, Register, RemoveMetamodCommands,
    InitConCommandBaseList, Unregister; engines before Orange Box, where the
    list is unlinked by hand), core/metamod.cpp 920-966 (the registration
    functions a plugin calls), core/metamod_plugins.cpp 338-358 (FindByAPI),
    804-866 (the lists kept per plugin) and the parts of _Load (600-606) and
    _Unload (617-656) that use them. *)
From Coq Require Import List ZArith Bool Lia.
Import ListNotations.
Local Open Scope Z_scope.

(** One CPlugin of m_Plugins (core/metamod_plugins.h 82-96): m_Id, m_API (0 is
    NULL, after a refused load), m_Cvars, m_Cmds. *)
Record entry := Entry { e_id : Z; e_api : Z; e_cvars : list Z; e_cmds : list Z }.

(** [top] is the engine's ConCommandBase::s_pConCommandBases, [next] the m_pNext
    of every object (0 is NULL), [found] says whether m_TopConCommandBase points
    to [top] (provider_source.h 78), [mine] is m_RegisteredCommands (81), [plugs]
    is m_Plugins. *)
Record st := St { top : Z; next : Z -> Z; found : bool; mine : list Z; plugs : list entry }.

Definition upd (f : Z -> Z) (a v : Z) : Z -> Z := fun x => if x =? a then v else f x.

(** What the engine shows: follow m_pNext from ICvar::GetCommands().  [None]: not
    at the end after [n] objects. *)
Fixpoint follow (n : nat) (nx : Z -> Z) (c : Z) : option (list Z) :=
  if c =? 0 then Some [] else
  match n with
  | O => None
  | S m => option_map (cons c) (follow m nx (nx c))
  end.
Definition shown (n : nat) (s : st) : option (list Z) := follow n (next s) (top s).

(** ICvar::RegisterConCommandBase of the engine (not in the repository): puts the
    object in front; [checks]: an engine that leaves an object alone that it
    already has. *)
Definition engine_register (checks : bool) (n : nat) (s : st) (c : Z) : option st :=
  if checks then
    match shown n s with
    | Some l => if existsb (Z.eqb c) l then Some s
                else Some (St c (upd (next s) c (top s)) (found s) (mine s) (plugs s))
    | None => None
    end
  else Some (St c (upd (next s) c (top s)) (found s) (mine s) (plugs s)).

(** provider_source_console.cpp 47-55 (Register): m_pNext = NULL, then the engine.
    The engine with a check sees the object in the state before (its flag does
    not depend on m_pNext). *)
Definition do_register (checks : bool) (n : nat) (s : st) (c : Z) : option st :=
  let s1 := St (top s) (upd (next s) c 0) (found s) (mine s) (plugs s) in
  if checks then
    match shown n s with
    | Some l => if existsb (Z.eqb c) l then Some s1 else engine_register false n s1 c
    | None => None
    end
  else engine_register false n s1 c.

(** 165-178: the loop of Unregister behind the first object. *)
Fixpoint unlink (n : nat) (nx : Z -> Z) (c prev cur : Z) : option (Z -> Z) :=
  if cur =? 0 then Some nx else
  match n with
  | O => None
  | S m =>
      let nx' := if cur =? c then upd (upd nx prev (nx c)) c 0 else nx in
      unlink m nx' c cur (nx' cur)
  end.

(** 138-180: Unregister. *)
Definition unregister (n : nat) (s : st) (c : Z) : option st :=
  if c =? 0 then Some s else
  if negb (found s) || (top s =? 0) then Some s else
  if top s =? c then Some (St (next s c) (upd (next s) c 0) (found s) (mine s) (plugs s))
  else match unlink n (next s) c (top s) (next s (top s)) with
       | Some nx => Some (St (top s) nx (found s) (mine s) (plugs s))
       | None => None
       end.

Fixpoint unregister_each (n : nat) (s : st) (cs : list Z) : option st :=
  match cs with
  | [] => Some s
  | c :: r => match unregister n s c with Some s1 => unregister_each n s1 r | None => None end
  end.

(** metamod_plugins.cpp 338-358. *)
Definition find_by_api (ps : list entry) (api : Z) : option entry :=
  if api =? 0 then None else find (fun e => e_api e =? api) ps.
Definition find_by_id (ps : list entry) (id : Z) : option entry := find (fun e => e_id e =? id) ps.

(** core/sourcehook/sh_list.h 285-296: the first element that is equal. *)
Fixpoint remove1 (c : Z) (l : list Z) : list Z :=
  match l with
  | [] => []
  | x :: r => if x =? c then r else x :: remove1 c r
  end.

(** m_Cvars or m_Cmds of the plugin with this id is changed. *)
Definition on_list (f : list Z -> list Z) (cmd : bool) (id : Z) (ps : list entry) : list entry :=
  map (fun e => if e_id e =? id
                then if cmd then Entry (e_id e) (e_api e) (e_cvars e) (f (e_cmds e))
                     else Entry (e_id e) (e_api e) (f (e_cvars e)) (e_cmds e)
                else e) ps.

Definition set_plugs (s : st) (ps : list entry) : st := St (top s) (next s) (found s) (mine s) ps.

(** 804-850: AddPluginCvar, AddPluginCmd, RemovePluginCvar, RemovePluginCmd; [cmd] is
    what IsConCommandBaseACommand says. *)
Definition track (f : list Z -> list Z) (cmd : bool) (api : Z) (s : st) : st :=
  match find_by_api (plugs s) api with
  | Some e => set_plugs s (on_list f cmd (e_id e) (plugs s))
  | None => s
  end.

(** 852-866: UnregAllConCmds: variables, then commands; the lists are cleared. *)
Definition unreg_all (n : nat) (s : st) (e : entry) : option st :=
  match unregister_each n s (e_cvars e) with
  | Some s1 =>
      let s2 := set_plugs s1 (on_list (fun _ => []) false (e_id e) (plugs s1)) in
      match unregister_each n s2 (e_cmds e) with
      | Some s3 => Some (set_plugs s3 (on_list (fun _ => []) true (e_id e) (plugs s3)))
      | None => None
      end
  | None => None
  end.

Inductive op :=
| EReg (c : Z)              (* the engine or the game registers its own *)
| MReg (c : Z)              (* provider_source_console.cpp 36-45: Metamod's own *)
| MRemoveAll                (* 57-65: RemoveMetamodCommands, at shutdown *)
| Loaded (id api : Z)       (* metamod_plugins.cpp 421-433, 488 ff: in the list, API known *)
| PReg (api c : Z)          (* metamod.cpp 920-948: RegisterConCommandBase *)
| PUnreg (api c : Z)        (* 928-966: UnregisterConCommandBase *)
| Refused (id : Z)          (* metamod_plugins.cpp 600-606 and 411-415 *)
| Unload (id : Z).          (* 617-656 *)

Section Step.
Variable iscmd : Z -> bool.    (* IsConCommandBaseACommand *)
Variable checks : bool.

Definition drop (id : Z) (ps : list entry) : list entry := filter (fun e => negb (e_id e =? id)) ps.

Definition step (n : nat) (s : st) (o : op) : option st :=
  match o with
  | EReg c => engine_register checks n s c
  | MReg c => do_register checks n (St (top s) (next s) (found s) (mine s ++ [c]) (plugs s)) c
  | MRemoveAll => unregister_each n s (mine s)
  | Loaded id api => Some (set_plugs s (plugs s ++ [Entry id api [] []]))
  | PReg api c => do_register checks n (track (fun l => l ++ [c]) (iscmd c) api s) c
  | PUnreg api c => unregister n (track (remove1 c) (iscmd c) api s) c
  | Refused id =>
      match find_by_id (plugs s) id with
      | Some e => option_map (fun s1 => set_plugs s1
          (map (fun x => if e_id x =? id then Entry (e_id x) 0 (e_cvars x) (e_cmds x) else x) (plugs s1)))
          (unreg_all n s e)
      | None => Some s
      end
  | Unload id =>
      match find_by_id (plugs s) id with
      | Some e => if e_api e =? 0 then Some (set_plugs s (drop id (plugs s)))
                  else option_map (fun s1 => set_plugs s1 (drop id (plugs s1))) (unreg_all n s e)
      | None => Some s
      end
  end.

Fixpoint run (n : nat) (s : st) (os : list op) : option st :=
  match os with
  | [] => Some s
  | o :: r => match step n s o with Some s1 => run n s1 r | None => None end
  end.
End Step.

Definition start (f : bool) : st := St 0 (fun _ => 0) f [] [].

(** InitConCommandBaseList on Linux (85-135, before Orange Box): the name of the
    engine's file is known ([file]), it can be opened ([handle]), [sym] is what
    dlsym gives (0 is NULL), [sig] says whether the function looks as expected and
    [at_sig] is the address in it.  The result and m_TopConCommandBase. *)
Definition init_linux (file handle : bool) (sym : Z) (sig : bool) (at_sig : Z) : bool * Z :=
  if file && handle then (true, sym)
  else if sig then (true, at_sig)
  else (false, 0).

(** The same on Windows (104-110). *)
Definition init_windows (sig : bool) (at_sig : Z) : bool * Z :=
  if sig then (true, at_sig) else (false, 0).
