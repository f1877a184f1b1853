(** The console commands and variables of plugins on Source 2.
    Modelled: core/provider/source2/provider_source2.cpp 291-332
    (IsConCommandBaseACommand, RegisterConCommand, RegisterConVar,
    UnregisterConCommand, UnregisterConVar), 334-354 (CreateConVar), 152-157 (the
    loop of Notify_DLLShutdown_Pre), core/metamod.cpp 920-966 (what a plugin calls),
    core/metamod_plugins.cpp 338-358, 804-866 and the parts of _Load (600-606) and
    _Unload (617-656) that use them.
    Simplified: the listeners that are told (metamod.cpp 968-1049) are not here;
    they change none of this themselves. *)
From Coq Require Import List ZArith Bool.
From Verif Require Import CmdModel.
Import ListNotations.
Local Open Scope Z_scope.

(** Flags of the SDK (not in the repository). *)
Definition FCVAR_DEVELOPMENTONLY : Z := 2.
Definition FCVAR_SPONLY : Z := 64.
Definition FCVAR_NOTIFY : Z := 256.
(** core/metamod_provider.h 35-40. *)
Definition ConVarFlag_None : Z := 0.
Definition ConVarFlag_Notify : Z := 1.
Definition ConVarFlag_SpOnly : Z := 2.

(** What the engine keeps: for a command its flags and whether it still has
    callbacks; for a variable whether its data is valid and whether it has
    callbacks. *)
Record cmd := Cmd { c_flags : Z; c_calls : bool }.
Record var := Var { v_valid : bool; v_calls : bool }.

(** [cmds] and [vars] by the engine's handle; [books] is m_Plugins. *)
Record st := St { cmds : Z -> option cmd; vars : Z -> option var; books : list entry }.

Definition set {A : Type} (f : Z -> A) (k : Z) (v : A) : Z -> A := fun x => if x =? k then v else f x.
Definition set_books (s : st) (ps : list entry) : st := St (cmds s) (vars s) ps.

Section Console.
(** The handle in a ConCommandRef or ConVarRefAbstract object of a plugin. *)
Variables hc hv : Z -> Z.

(** ConVar_Register of a plugin's own code: the engine makes the command, or gives
    new callbacks to the one of that name it already has, whose flags stay (this
    is what the comment in 300-303 says of the engine). *)
Definition engine_cmd (s : st) (k fl : Z) : st :=
  St (set (cmds s) k (Some (match cmds s k with
                            | Some c => Cmd (c_flags c) true
                            | None => Cmd fl true
                            end))) (vars s) (books s).
Definition engine_var (s : st) (k : Z) : st :=
  St (cmds s) (set (vars s) k (Some (Var true true))) (books s).

(** 297-308; [None]: the reference names nothing. *)
Definition prov_reg_cmd (s : st) (r : Z) : option st :=
  match cmds s (hc r) with
  | Some c =>
      Some (if negb (Z.land (c_flags c) FCVAR_DEVELOPMENTONLY =? 0)
            then St (set (cmds s) (hc r) (Some (Cmd (Z.ldiff (c_flags c) FCVAR_DEVELOPMENTONLY) (c_calls c))))
                    (vars s) (books s)
            else s)
  | None => None
  end.
(** 310-314. *)
Definition prov_reg_var (s : st) (r : Z) : option st := Some s.
(** 316-322. *)
Definition prov_unreg_cmd (s : st) (r : Z) : option st :=
  match cmds s (hc r) with
  | Some c => Some (St (set (cmds s) (hc r) (Some (Cmd (Z.lor (c_flags c) FCVAR_DEVELOPMENTONLY) false)))
                       (vars s) (books s))
  | None => None
  end.
(** 324-332. *)
Definition prov_unreg_var (s : st) (r : Z) : option st :=
  match vars s (hv r) with
  | Some _ => Some (St (cmds s) (set (vars s) (hv r) (Some (Var false false))) (books s))
  | None => None
  end.

(** metamod_plugins.cpp 804-850. *)
Definition track (f : list Z -> list Z) (iscmd : bool) (api : Z) (s : st) : st :=
  match find_by_api (books s) api with
  | Some e => set_books s (on_list f iscmd (e_id e) (books s))
  | None => s
  end.

Fixpoint each (f : st -> Z -> option st) (s : st) (l : list Z) : option st :=
  match l with
  | [] => Some s
  | r :: rest => match f s r with Some s1 => each f s1 rest | None => None end
  end.

(** metamod_plugins.cpp 852-866. *)
Definition unreg_all (s : st) (e : entry) : option st :=
  match each prov_unreg_var s (e_cvars e) with
  | Some s1 =>
      let s2 := set_books s1 (on_list (fun _ => []) false (e_id e) (books s1)) in
      match each prov_unreg_cmd s2 (e_cmds e) with
      | Some s3 => Some (set_books s3 (on_list (fun _ => []) true (e_id e) (books s3)))
      | None => None
      end
  | None => None
  end.

Inductive op :=
| ECmd (k fl : Z)           (* the engine makes a command *)
| EVar (k : Z)              (* the engine makes a variable *)
| Loaded (id api : Z)       (* metamod_plugins.cpp 421-433, 488 ff *)
| RegCmd (api r : Z)        (* metamod.cpp 936-940 *)
| RegVar (api r : Z)        (* 942-946 *)
| UnregCmd (api r : Z)      (* 948-954 *)
| UnregVar (api r : Z)      (* 956-962 *)
| Refused (id : Z)          (* metamod_plugins.cpp 600-606 and 411-415 *)
| Unload (id : Z).          (* 617-656 *)

Definition no_api (id : Z) (ps : list entry) : list entry :=
  map (fun x => if e_id x =? id then Entry (e_id x) 0 (e_cvars x) (e_cmds x) else x) ps.

Definition step (s : st) (o : op) : option st :=
  match o with
  | ECmd k fl => Some (engine_cmd s k fl)
  | EVar k => Some (engine_var s k)
  | Loaded id api => Some (set_books s (books s ++ [Entry id api [] []]))
  | RegCmd api r => prov_reg_cmd (track (fun l => l ++ [r]) true api s) r
  | RegVar api r => prov_reg_var (track (fun l => l ++ [r]) false api s) r
  | UnregCmd api r => prov_unreg_cmd (track (remove1 r) true api s) r
  | UnregVar api r => prov_unreg_var (track (remove1 r) false api s) r
  | Refused id =>
      match find_by_id (books s) id with
      | Some e => option_map (fun s1 => set_books s1 (no_api id (books s1))) (unreg_all s e)
      | None => Some s
      end
  | Unload id =>
      match find_by_id (books s) id with
      | Some e => if e_api e =? 0 then Some (set_books s (drop id (books s)))
                  else option_map (fun s1 => set_books s1 (drop id (books s1))) (unreg_all s e)
      | None => Some s
      end
  end.

Fixpoint run (s : st) (os : list op) : option st :=
  match os with
  | [] => Some s
  | o :: r => match step s o with Some s1 => run s1 r | None => None end
  end.

(** metamod.cpp 920-934 with provider_source2.cpp 291-295: the old registration
    function; the object is taken for a variable always. *)
Definition is_command (r : Z) : bool := false.
Definition reg_base (s : st) (api r : Z) : option st :=
  if is_command r then step s (RegCmd api r) else step s (RegVar api r).
Definition unreg_base (s : st) (api r : Z) : option st :=
  if is_command r then step s (UnregCmd api r) else step s (UnregVar api r).

End Console.

Definition start : st := St (fun _ => None) (fun _ => None) [].

(** 334-354: CreateConVar.  [live] are the CConVar objects on the heap, [made] is
    m_RegisteredConVars; [new] is the address operator new gives. *)
Record own := Own { live : list Z; made : list Z; has : Z -> Z }.
Definition new_flags (flags : Z) : Z :=
  let f := 0 in
  let f := if negb (Z.land flags ConVarFlag_Notify =? 0) then Z.lor f FCVAR_NOTIFY else f in
  if negb (Z.land flags ConVarFlag_SpOnly =? 0) then Z.lor f FCVAR_SPONLY else f.
Definition create (s : own) (new flags : Z) : own :=
  Own (new :: live s) (made s ++ [new]) (set (has s) new (new_flags flags)).
(** 154-155; [None]: something is deleted that is not there. *)
Fixpoint delete_each (l : list Z) (made : list Z) : option (list Z) :=
  match made with
  | [] => Some l
  | a :: r => if existsb (Z.eqb a) l then delete_each (remove1 a l) r else None
  end.
Definition shutdown (s : own) : option own :=
  option_map (fun l => Own l (made s) (has s)) (delete_each (live s) (made s)).
