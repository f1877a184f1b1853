(** The life of the game library under the loader. *)
From Coq Require Import List Bool Arith.
From Verif Require Import DllModel.
Import ListNotations.

(** the core was loaded and its DLLInit_Pre succeeded *)
Definition core_up (o : outcome) : bool := o_known o && o_load o && o_getbridge o && o_pre o.
(** the core's DLLInit_Pre was called *)
Definition pre_called (o : outcome) : bool := o_known o && o_load o && o_getbridge o.

(** what everybody except the loader made of the table [t] *)
Definition others (o : outcome) (t : table) : table :=
  let t := if pre_called o then e_pre o t else t in
  let t := e_game o t in
  if core_up o && o_result o then e_post o t else t.

(** nobody else stores the loader's functions or NULL in slot [sd] *)
Definition benign (sd : nat) (f : table -> table) : Prop :=
  forall t, f t sd = t sd \/ exists n, f t sd = Other n.

Inductive phase := Asking | Have | Running (with_core : bool) | Failed | Down (with_core : bool).

(** An engine that asks for the interface until it gets one, calls DLLInit once, and
    DLLShutdown once if that succeeded; [paths]: the number of libraries, [sd]: the slot of
    DLLShutdown, which the core knows. *)
Inductive reach (paths sd : nat) : phase -> st -> Prop :=
| r_start : reach paths sd Asking (start paths)
| r_no s al s' : reach paths sd Asking s -> length al = paths -> GameDllRequest s al = Some (s', false) ->
    reach paths sd Asking s'
| r_yes s al s' : reach paths sd Asking s -> length al = paths -> GameDllRequest s al = Some (s', true) ->
    reach paths sd Have s'
| r_init s o s' : reach paths sd Have s -> o_index o = sd ->
    benign sd (e_pre o) -> benign sd (e_game o) -> benign sd (e_post o) ->
    step sd s (CallInitSlot o) = Some s' ->
    reach paths sd (if o_result o then Running (core_up o) else Failed) s'
| r_down s c s' : reach paths sd (Running c) s -> step sd s CallShutdownSlot = Some s' ->
    reach paths sd (Down c) s'.

Definition inits (t : list call) : list addr :=
  flat_map (fun c => match c with CallInit a => [a] | _ => [] end) t.
Definition shutdowns (t : list call) : list addr :=
  flat_map (fun c => match c with CallShutdown a => [a] | _ => [] end) t.
