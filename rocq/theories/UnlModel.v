(** Who is told that a console command or variable goes away.
    Modelled: core/metamod.cpp 948-966 and 968-1049 (UnregisterConCommand and
    UnregisterConVar, for a plugin and with an id), core/metamod_plugins.cpp 852-866
    (UnregAllConCmds), 617-646 (the part of _Unload that calls it) and 149-152 (the
    constructor of CPlugin, which leaves m_Status unset).
    Simplified: the listeners do nothing themselves while they are told. *)
From Coq Require Import List ZArith Bool.
From Verif Require Import CmdModel.
Import ListNotations.
Local Open Scope Z_scope.

(** core/IPluginManager.h 54-61. *)
Definition Pl_NotFound : Z := -4.
Definition Pl_Error : Z := -3.
Definition Pl_Refused : Z := -2.
Definition Pl_Paused : Z := -1.
Definition Pl_Running : Z := 0.

(** A CPlugin: m_Id, m_Status ([None]: not set yet), the answer of m_API->GetApiVersion
    ([None]: m_API is NULL), m_API, m_Events, m_Cvars, m_Cmds. *)
Record plug := Plug { p_id : Z; p_status : option Z; p_ver : option Z; p_api : Z;
                      p_events : list Z; p_cvars : list Z; p_cmds : list Z }.

(** OnUnlinkConCommandBase; OnUnlinkConCommand or OnUnlinkConVar. *)
Inductive how := OldWay | NewWay.
(** A listener is told; the provider unregisters. *)
Inductive event :=
| Told (l : Z) (h : how) (id : Z) (cmd : bool) (c : Z)
| Gone (cmd : bool) (c : Z).

(** 968-1008 (commands) and 1010-1049 (variables): the loop.  [None]: m_Status is read
    before it was ever set, or m_API is NULL. *)
Fixpoint tell (ps : list plug) (id : Z) (cmd : bool) (c : Z) : option (list event) :=
  match ps with
  | [] => Some []
  | p :: r =>
      match p_status p with
      | None => None
      | Some st =>
          if st <? Pl_Paused then tell r id cmd c else
          match p_ver p with
          | None => None
          | Some v =>
              if v <? 12 then tell r id cmd c else
              let h := if v <? 17 then OldWay else NewWay in
              option_map (fun t => map (fun l => Told l h id cmd c) (p_events p) ++ t) (tell r id cmd c)
          end
      end
  end.

Definition unregister (ps : list plug) (id : Z) (cmd : bool) (c : Z) : option (list event) :=
  option_map (fun t => t ++ [Gone cmd c]) (tell ps id cmd c).

Fixpoint unregister_each (ps : list plug) (id : Z) (cmd : bool) (l : list Z) : option (list event) :=
  match l with
  | [] => Some []
  | c :: r => match unregister ps id cmd c, unregister_each ps id cmd r with
              | Some a, Some b => Some (a ++ b)
              | _, _ => None
              end
  end.

(** metamod_plugins.cpp 852-866. *)
Definition unreg_all (ps : list plug) (p : plug) : option (list event) :=
  match unregister_each ps (p_id p) false (p_cvars p), unregister_each ps (p_id p) true (p_cmds p) with
  | Some a, Some b => Some (a ++ b)
  | _, _ => None
  end.

(** m_Events.clear() of one plugin. *)
Definition clear_events (id : Z) (ps : list plug) : list plug :=
  map (fun p => if p_id p =? id
                then Plug (p_id p) (p_status p) (p_ver p) (p_api p) [] (p_cvars p) (p_cmds p) else p) ps.

(** 617-646 (and 600-606 in _Load): the events are cleared, then all is unregistered. *)
Definition unload (ps : list plug) (p : plug) : option (list event) :=
  unreg_all (clear_events (p_id p) ps) p.

(** metamod.cpp 948-962: a plugin unregisters something; the lists after it. *)
Definition find_api (ps : list plug) (api : Z) : option plug :=
  if api =? 0 then None else find (fun p => p_api p =? api) ps.
Definition take (cmd : bool) (c : Z) (id : Z) (ps : list plug) : list plug :=
  map (fun p => if p_id p =? id
                then if cmd then Plug (p_id p) (p_status p) (p_ver p) (p_api p) (p_events p) (p_cvars p) (remove1 c (p_cmds p))
                     else Plug (p_id p) (p_status p) (p_ver p) (p_api p) (p_events p) (remove1 c (p_cvars p)) (p_cmds p)
                else p) ps.
Definition plugin_unregister (ps : list plug) (api : Z) (cmd : bool) (c : Z) : option (list plug * list event) :=
  let ps' := match find_api ps api with Some p => take cmd c (p_id p) ps | None => ps end in
  let id := match find_api ps api with Some p => p_id p | None => 0 end in
  option_map (fun t => (ps', t)) (unregister ps' id cmd c).
