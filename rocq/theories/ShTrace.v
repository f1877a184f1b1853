(** Reading a trace: what has happened so far in one call of a hooked function,
    seen from outside.  Traces are newest first. *)
From Coq Require Import List Bool Arith ZArith.
From Verif Require Import ProtoModel ShModel ShRun ShSpec.
Import ListNotations.
Local Open Scope nat_scope.

(** [vw_pre], [vw_pst]: the handlers called before and after the original
    function; [vw_res1], [vw_res2]: their results; [vw_prev]: the result of the
    handler that returned last in the current loop; [vw_norig]: how often the
    original function was called; [vw_orig]: its value; [vw_ign]: the call
    ignores hooks; [vw_rec]: a handler has recalled the function.
    A recall continues the call it comes from. *)
Record view := View { vw_slot : Z; vw_this : Z; vw_param : Z; vw_post : bool; vw_pre : list nat; vw_pst : list nat;
  vw_res1 : list (meta * Z); vw_res2 : list (meta * Z); vw_prev : meta; vw_norig : nat; vw_orig : option Z;
  vw_ign : bool; vw_rec : bool }.

Definition view0 : view := View 0 0 0 false [] [] [] [] MIgnored 0 None false false.
Definition vw_begin (slot this p : Z) (ign : bool) : view := View slot this p false [] [] [] [] MIgnored 0 None ign false.
Definition vw_continue (slot this p : Z) (v : view) : view :=
  View slot this p (vw_post v) (vw_pre v) (vw_pst v) (vw_res1 v) (vw_res2 v) MIgnored (vw_norig v) (vw_orig v) false false.
Definition vw_call (n : nat) (v : view) : view :=
  if vw_post v
  then View (vw_slot v) (vw_this v) (vw_param v) true (vw_pre v) (n :: vw_pst v) (vw_res1 v) (vw_res2 v) (vw_prev v) (vw_norig v) (vw_orig v) (vw_ign v) (vw_rec v)
  else View (vw_slot v) (vw_this v) (vw_param v) false (n :: vw_pre v) (vw_pst v) (vw_res1 v) (vw_res2 v) (vw_prev v) (vw_norig v) (vw_orig v) (vw_ign v) (vw_rec v).
Definition vw_result (r : meta) (z : Z) (v : view) : view :=
  if vw_post v
  then View (vw_slot v) (vw_this v) (vw_param v) true (vw_pre v) (vw_pst v) (vw_res1 v) ((r, z) :: vw_res2 v) r (vw_norig v) (vw_orig v) (vw_ign v) (vw_rec v)
  else View (vw_slot v) (vw_this v) (vw_param v) false (vw_pre v) (vw_pst v) ((r, z) :: vw_res1 v) (vw_res2 v) r (vw_norig v) (vw_orig v) (vw_ign v) (vw_rec v).
Definition vw_recall (r : meta) (z : Z) (v : view) : view :=
  let v1 := vw_result r z v in
  View (vw_slot v1) (vw_this v1) (vw_param v1) (vw_post v1) (vw_pre v1) (vw_pst v1) (vw_res1 v1) (vw_res2 v1) (vw_prev v) (vw_norig v1) (vw_orig v1) (vw_ign v1) true.
Definition vw_origcall (v : view) : view :=
  View (vw_slot v) (vw_this v) (vw_param v) (vw_post v) (vw_pre v) (vw_pst v) (vw_res1 v) (vw_res2 v) (vw_prev v) (S (vw_norig v)) (vw_orig v) (vw_ign v) (vw_rec v).
Definition vw_origret (z : Z) (v : view) : view :=
  View (vw_slot v) (vw_this v) (vw_param v) (vw_post v) (vw_pre v) (vw_pst v) (vw_res1 v) (vw_res2 v) (vw_prev v) (vw_norig v) (Some z) (vw_ign v) (vw_rec v).
Definition vw_enter_post (v : view) : view :=
  View (vw_slot v) (vw_this v) (vw_param v) true (vw_pre v) (vw_pst v) (vw_res1 v) (vw_res2 v) MIgnored (vw_norig v) (vw_orig v) (vw_ign v) (vw_rec v).

Fixpoint see (t : list obs) (F : nat) : view :=
  match t with
  | [] => view0
  | o :: t' =>
      match o with
      | OBegin f s a p k =>
          if f =? F then match k with
                         | KNormal => vw_begin s a p false
                         | KIgnored => vw_begin s a p true
                         | KRecall q => vw_continue s a p (see t' q)
                         end
          else see t' F
      | OHandler f n _ _ _ => if f =? F then vw_call n (see t' F) else see t' F
      | OHandlerRet f _ r z => if f =? F then vw_result r z (see t' F) else see t' F
      | ORecall f _ r z => if f =? F then vw_recall r z (see t' F) else see t' F
      | OOrig f _ _ _ => if f =? F then vw_origcall (see t' F) else see t' F
      | OOrigRet f z => if f =? F then vw_origret z (see t' F) else see t' F
      | OPost f => if f =? F then vw_enter_post (see t' F) else see t' F
      | _ => see t' F
      end
  end.

(** Handlers called in the current loop; all results, newest first *)
Definition vw_ran (v : view) : list nat := if vw_post v then vw_pst v else vw_pre v.
Definition vw_res (v : view) : list (meta * Z) := vw_res2 v ++ vw_res1 v.

(** The highest result *)
Fixpoint max_res (l : list (meta * Z)) : meta :=
  match l with
  | [] => MIgnored
  | (r, _) :: l' => if meta_gt r (max_res l') then r else max_res l'
  end.
(** The value given by the last handler that overrode *)
Fixpoint last_override (l : list (meta * Z)) : option Z :=
  match l with
  | [] => None
  | (MOverride, z) :: _ => Some z
  | (MSupercede, z) :: _ => Some z
  | _ :: l' => last_override l'
  end.
(** Somebody superceded. *)
Definition superceded (l : list (meta * Z)) : bool := existsb (fun x => match fst x with MSupercede => true | _ => false end) l.

(** The hooks a call considers in one loop, in the order in which it should run
    them. *)
Definition loop_hooks (h : hs) (slot this : Z) (post : bool) : list hook :=
  installed h slot this post ++ installed h slot 0 post.
Definition active (l : list hook) : list hook := filter (fun k => negb (hk_paused k)) l.
