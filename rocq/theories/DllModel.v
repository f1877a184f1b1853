(** Model of the loader standing in for the game library (Source 1).
    Sources: /repo/loader/gamedll.cpp 220-230 (mm_FreeCachedLibraries), 464-569
    (IServerGameDLL::DLLInit), 571-601 (DLLShutdown), 608-654 (mm_PatchDllInit), 656-689
    (mm_PatchDllShutdown), 763-901 (mm_GameDllRequest for "ServerGameDLL").
    Release build (assertions are not checked).
    Simplified: the handle of a library is the index of its path (the system returns the
    same handle for a library that is loaded already and counts); the paths name
    different libraries; a library that is loaded anew has its tables as at first; what
    the core, the plugins and the game do to the game's table while they run is an
    arbitrary function on it; memory protection is not modelled. *)
From Coq Require Import List Bool Arith.
Import ListNotations.
Local Notation "'do' x <- a ; b" := (match a with Some x => b | None => None end)
  (at level 200, x pattern, a at level 100, b at level 200).

(** entries of tables: what slot [i] of the table of library [h] held at first, the
    loader's own functions, NULL, code of anybody else *)
Inductive addr := Game (h i : nat) | TInit | TShutdown | Null | Other (n : nat).

Definition table := nat -> addr.
Definition set_slot (t : table) (i : nat) (a : addr) : table := fun j => if j =? i then a else t j.

Inductive call := CallInit (a : addr) | CallShutdown (a : addr) | CoreUnload.

Record st := mk {
  libs : list (option nat);      (* gamedll_libs *)
  opened : list nat;             (* handles which are loaded, with multiplicity *)
  glib : option nat;             (* gamedll_lib *)
  iface : option nat;            (* gamedll_iface: the library it belongs to *)
  vt : nat -> table;             (* the table of the interface of each library *)
  orig_init : addr;              (* isgd_orig_init *)
  orig_shutdown : addr;          (* isgd_orig_shutdown *)
  bridge : bool;                 (* gamedll_bridge != NULL *)
  core : bool;                   (* mm_library != NULL *)
  trace : list call
}.

Definition set_libs s x := mk x (opened s) (glib s) (iface s) (vt s) (orig_init s) (orig_shutdown s) (bridge s) (core s) (trace s).
Definition set_opened s x := mk (libs s) x (glib s) (iface s) (vt s) (orig_init s) (orig_shutdown s) (bridge s) (core s) (trace s).
Definition set_glib s x := mk (libs s) (opened s) x (iface s) (vt s) (orig_init s) (orig_shutdown s) (bridge s) (core s) (trace s).
Definition set_iface s x := mk (libs s) (opened s) (glib s) x (vt s) (orig_init s) (orig_shutdown s) (bridge s) (core s) (trace s).
Definition set_vt s x := mk (libs s) (opened s) (glib s) (iface s) x (orig_init s) (orig_shutdown s) (bridge s) (core s) (trace s).
Definition set_oinit s x := mk (libs s) (opened s) (glib s) (iface s) (vt s) x (orig_shutdown s) (bridge s) (core s) (trace s).
Definition set_oshut s x := mk (libs s) (opened s) (glib s) (iface s) (vt s) (orig_init s) x (bridge s) (core s) (trace s).
Definition set_bridge s x := mk (libs s) (opened s) (glib s) (iface s) (vt s) (orig_init s) (orig_shutdown s) x (core s) (trace s).
Definition set_core s x := mk (libs s) (opened s) (glib s) (iface s) (vt s) (orig_init s) (orig_shutdown s) (bridge s) x (trace s).
Definition log s c := mk (libs s) (opened s) (glib s) (iface s) (vt s) (orig_init s) (orig_shutdown s) (bridge s) (core s) (trace s ++ [c]).

(** write to the table of the interface *)
Definition on_table (s : st) (h : nat) (f : table -> table) : st :=
  set_vt s (fun k => if k =? h then f (vt s h) else vt s k).

Definition is_open (s : st) (h : nat) : bool := existsb (Nat.eqb h) (opened s).

(** mm_LoadLibrary when it succeeds *)
Definition load (s : st) (h : nat) : st :=
  let s := if is_open s h then s else on_table s h (fun _ => Game h) in
  set_opened s (h :: opened s).

(** mm_UnloadLibrary; [None]: the handle is not loaded *)
Fixpoint remove1 (h : nat) (l : list nat) : list nat :=
  match l with [] => [] | x :: l' => if x =? h then l' else x :: remove1 h l' end.
Definition unload (s : st) (h : nat) : option st :=
  if is_open s h then Some (set_opened s (remove1 h (opened s))) else None.

(** mm_FreeCachedLibraries (220-230): the entries are not cleared *)
Fixpoint free_cached (s : st) (l : list (option nat)) : option st :=
  match l with
  | [] => Some s
  | None :: l' => free_cached s l'
  | Some h :: l' => do s <- unload s h ; free_cached s l'
  end.

Fixpoint set_nth {A} (l : list A) (i : nat) (x : A) : list A :=
  match l, i with
  | [], _ => []
  | _ :: l', O => x :: l'
  | y :: l', S i' => y :: set_nth l' i' x
  end.

(** what the system and the library answer for one path: mm_LoadLibrary succeeds, it
    exports CreateInterface, CreateInterface knows the name *)
Record answer := ans { a_load : bool; a_qvi : bool; a_ptr : bool }.

(** 850-869: the loop over the paths.  Result: the library that has the interface *)
Fixpoint req_loop (s : st) (i : nat) (al : list answer) : option (st * option nat) :=
  match al with
  | [] => Some (s, None)
  | a :: al' =>
      do cached <- nth_error (libs s) i ;
      let go s h :=
        if negb (is_open s h) then None                    (* mm_GetLibAddress of a library that is gone *)
        else if negb (a_qvi a) then req_loop s (S i) al'
        else if a_ptr a then Some (set_libs s (set_nth (libs s) i None), Some h)
        else req_loop s (S i) al' in
      match cached with
      | Some h => go s h
      | None =>
          if a_load a then
            let s := load s i in
            go (set_libs s (set_nth (libs s) i (Some i))) i
          else req_loop s (S i) al'
      end
  end.

(** mm_PatchDllInit (608-654); DLLInit is slot 0 of the interface *)
Definition PatchDllInit (s : st) (patch : bool) : option st :=
  do h <- iface s ;
  if patch then
    Some (on_table (set_oinit s (vt s h 0)) h (fun t => set_slot t 0 TInit))
  else
    Some (set_oinit (on_table s h (fun t => set_slot t 0 (orig_init s))) Null).

(** mm_PatchDllShutdown (656-689) *)
Definition PatchDllShutdown (s : st) (index : nat) : option st :=
  do h <- iface s ;
  Some (on_table (set_oshut s (vt s h index)) h (fun t => set_slot t index TShutdown)).

(** mm_GameDllRequest for a name that begins with "ServerGameDLL" (838-884); the number
    of answers is gamedll_path_count.  Result: not NULL *)
Definition GameDllRequest (s : st) (al : list answer) : option (st * bool) :=
  do (s, r) <- req_loop s 0 al ;
  match r with
  | None => Some (s, false)
  | Some h =>
      do s <- free_cached s (libs s) ;
      do s <- PatchDllInit (set_iface (set_glib s (Some h)) (Some h)) true ;
      Some (s, true)
  end.

(** What happens during one DLLInit: the engine is known, the core's library loads,
    exports GetGameDllBridge, DLLInit_Pre succeeds; what the game's DLLInit returns, the
    index DLLInit_Post stores; and what each of them does to the table. *)
Record outcome := out {
  o_known : bool; o_load : bool; o_getbridge : bool; o_pre : bool; o_result : bool; o_index : nat;
  e_pre : table -> table; e_game : table -> table; e_post : table -> table
}.

Definition is_init (a : addr) : bool := match a with TInit => true | _ => false end.

(** DLLInit (464-569) *)
Definition DLLInit (s : st) (o : outcome) : option (st * bool) :=
  let s :=
    if o_known o && o_load o then
      if o_getbridge o then set_bridge (set_core s true) true
      else set_core s false                                 (* loaded and unloaded again *)
    else s in
  do h <- iface s ;
  let s :=
    if bridge s then
      let s := on_table s h (e_pre o) in
      if o_pre o then s else set_core (set_bridge s false) false
    else s in
  if is_init (orig_init s) then None                        (* calls itself for ever *)
  else
    let s := log s (CallInit (orig_init s)) in
    let s := on_table s h (e_game o) in
    do s <- (if negb (o_result o) then
               if bridge s then Some (set_core (set_bridge (log s CoreUnload) false) false) else None
             else if bridge s then
               PatchDllShutdown (on_table s h (e_post o)) (o_index o)
             else Some s) ;
    do s <- PatchDllInit s false ;
    Some (s, o_result o).

(** DLLShutdown (571-601) *)
Definition DLLShutdown (s : st) : option st :=
  if bridge s then
    let s := set_core (set_bridge (log s CoreUnload) false) false in
    let s := log s (CallShutdown (orig_shutdown s)) in
    do h <- glib s ;
    do s <- unload s h ;
    Some (set_glib s None)
  else None.

(** The engine: asks for the interface, calls the entries of its table.  [sd] is the slot
    of DLLShutdown in the game's table. *)
Inductive op := Request (al : list answer) | CallInitSlot (o : outcome) | CallShutdownSlot.

Definition step (sd : nat) (s : st) (p : op) : option st :=
  match p with
  | Request al => do (s, _) <- GameDllRequest s al ; Some s
  | CallInitSlot o =>
      do h <- iface s ;
      match vt s h 0 with
      | TInit => do (s, _) <- DLLInit s o ; Some s
      | Null | TShutdown => None
      | a => Some (on_table (log s (CallInit a)) h (e_game o))
      end
  | CallShutdownSlot =>
      do h <- iface s ;
      match vt s h sd with
      | TShutdown => DLLShutdown s
      | Null | TInit => None
      | a => Some (log s (CallShutdown a))
      end
  end.

Fixpoint run (sd : nat) (s : st) (l : list op) : option st :=
  match l with
  | [] => Some s
  | p :: l' => do s <- step sd s p ; run sd s l'
  end.

Definition start (paths : nat) : st :=
  mk (repeat None paths) [] None None (fun h i => Game h i) Null Null false false [].
