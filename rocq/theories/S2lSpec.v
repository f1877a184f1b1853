(** The life of a Source 2 game under the loader, as the game and the core see it. *)
From Coq Require Import List Bool Arith ZArith Ascii String.
From Verif Require Import StrModel ConsModel S2lModel.
Import ListNotations.
Local Open Scope list_scope.
Local Open Scope nat_scope.
Notation length := List.length.

Definition starts (p name : str) : Prop := exists r, name = p ++ r.

(** the core was asked to start; it started *)
Definition pre_called (o : outcome) : bool := o_load o && o_getbridge o.
Definition core_up (o : outcome) : bool := o_load o && o_getbridge o && o_pre o.

(** what everybody except the loader made of the world *)
Definition others (o : outcome) (w : world) : world :=
  let w := if pre_called o then e_pre o w else w in
  let w := e_game o w in
  if core_up o && o_result o then e_post o w else w.

(** Others leave the loader's entries alone, except that they may hook Disconnect, and do
    not take away the right to write. *)
Record benign (f : world -> world) : Prop := {
  bn_shut : forall w, tc (f w) 1 = tc w 1 \/ exists n, tc (f w) 1 = Other n;
  bn_allow : forall w, tc (f w) 21 = tc w 21;
  bn_page : forall w p, wr w p = true -> wr (f w) p = true
}.
Definition benign_out (o : outcome) : Prop := benign (e_pre o) /\ benign (e_game o) /\ benign (e_post o).

(** the first two entries of the table are on one page *)
Definition together (base : Z) : Prop := (base / 4096 = (base + 15) / 4096)%Z.

(** How far the engine has come: it has the first interface of library [h], has connected
    with factory [f], has the second interface, has called Init, has disconnected *)
Inductive phase :=
| Asking | HaveC (h : nat) | Conn (h : nat) (f : Z) | HaveS (h : nat) (f : Z)
| Ran (h : nat) (f : Z) (o : outcome) | Down (h : nat) (f : Z) (o : outcome).

(** An engine which does this in order, asks whether dedicated servers are allowed at any
    time in between ([n]: how often it has), and asks for other interfaces whenever it likes *)
Definition has_config (p : phase) : option nat :=
  match p with Asking | Down _ _ _ => None | HaveC h | Conn h _ | HaveS h _ | Ran h _ _ => Some h end.
Inductive reach (win : bool) (L : layout) (paths : nat) (w0 : Z -> bool) : nat -> phase -> st -> Prop :=
| r_start : reach win L paths w0 0 Asking (start paths w0)
| r_no s v name s' : reach win L paths w0 0 Asking s -> length (v_paths v) = paths ->
    starts (w_ "Source2ServerConfig") name ->
    CreateInterface win L s v name = Some (s', false) -> reach win L paths w0 0 Asking s'
| r_yes s v name s' h : reach win L paths w0 0 Asking s -> length (v_paths v) = paths ->
    starts (w_ "Source2ServerConfig") name ->
    CreateInterface win L s v name = Some (s', true) -> config s' = Some h -> reach win L paths w0 0 (HaveC h) s'
| r_connect n s h f e r s' : reach win L paths w0 n (HaveC h) s -> benign e -> (forall w, ts (e w) 3 = ts w 3) ->
    step win L s (OConnect f e r) = Some s' -> reach win L paths w0 n (Conn h f) s'
| r_server n s h f v num s' r : reach win L paths w0 n (Conn h f) s ->
    v_dedicated v = true \/ v_insecure v = true -> atoi num <> 0%Z ->
    CreateInterface win L s v (w_ "Source2Server" ++ num) = Some (s', r) -> reach win L paths w0 n (HaveS h f) s'
| r_init n s h f o s' : reach win L paths w0 n (HaveS h f) s -> o_index o = 1 -> benign_out o ->
    step win L s (OInit o) = Some s' -> reach win L paths w0 n (Ran h f o) s'
| r_down n s h f o eu eg s' : reach win L paths w0 n (Ran h f o) s -> o_result o = true ->
    step win L s (ODisconnect eu eg) = Some s' -> reach win L paths w0 n (Down h f o) s'
| r_allow n p h s s' : reach win L paths w0 n p s -> has_config p = Some h ->
    step win L s OAllow = Some s' -> reach win L paths w0 (S n) p s'
| r_other n p s v name s' : reach win L paths w0 n p s -> 
    ~ starts (w_ "Source2Server") name -> ~ starts (w_ "ServerGameDLL") name ->
    step win L s (Request v name) = Some s' -> reach win L paths w0 n p s'.

(** the calls which matter, without the questions for interfaces *)
Definition life (t : list call) : list call :=
  filter (fun c => match c with CoreAsked _ | GameAsked _ | CallAllow _ => false | _ => true end) t.
Definition allows (t : list call) : list addr :=
  flat_map (fun c => match c with CallAllow a => [a] | _ => [] end) t.

(** what has happened to the game and the core so far *)
Definition on_connect (h : nat) (f : Z) : list call := [CallConnect (Conf h 0) f].
Definition on_init (h : nat) (f : Z) (o : outcome) : list call :=
  (if pre_called o then [CorePre (Some f)] else []) ++ [CallInit (Serv h 3)] ++
  (if core_up o then [if o_result o then CorePost else CoreUnload] else []).
Definition on_down (o : outcome) (a : addr) : list call :=
  (if core_up o then [CoreUnload] else []) ++ [CallDisconnect a].

(** ** What is true at each point *)
Definition held (h : nat) (s : st) : Prop :=
  config s = Some h /\ glib s = Some h /\ qvi s = Some h /\ opened s = [h].
(** the game's own entry, or the hook of a plugin *)
Definition hookable (h i : nat) (a : addr) : Prop := a = Conf h i \/ exists n, a = Other n.
(** on Windows the first question whether dedicated servers are allowed does not reach the game *)
Definition allow_says (win : bool) (n h : nat) (s : st) : Prop :=
  (if win && (n =? 0) then ct s h 21 = TAllow /\ o_allow s = Conf h 21 else ct s h 21 = Conf h 21) /\
  allows (trace s) = repeat (Conf h 21) (if win then n - 1 else n).
Definition page_open (L : layout) (h : nat) (s : st) : Prop := wrt s (a_conf L h / 4096)%Z = true.
Definition no_core (s : st) : Prop := bridge s = false /\ core s = false.

Definition phase_says (win : bool) (L : layout) (paths : nat) (n : nat) (p : phase) (s : st) : Prop :=
  match p with
  | Asking => n = 0 /\ length (libs s) = paths /\ glib s = None /\ no_core s /\ life (trace s) = [] /\ allows (trace s) = []
  | HaveC h => h < paths /\ held h s /\ allow_says win n h s /\ page_open L h s /\ no_core s /\ life (trace s) = [] /\
      (forall j, j <> 0 -> j <> 21 -> ct s h j = Conf h j) /\ (forall j, st_ s h j = Serv h j) /\
      ct s h 0 = TConnect /\ o_connect s = Conf h 0
  | Conn h f => h < paths /\ held h s /\ allow_says win n h s /\ page_open L h s /\ no_core s /\
      life (trace s) = on_connect h f /\
      ct s h 0 = Conf h 0 /\ hookable h 1 (ct s h 1) /\ st_ s h 3 = Serv h 3 /\ fact s = Some f
  | HaveS h f => h < paths /\ held h s /\ allow_says win n h s /\ page_open L h s /\ no_core s /\
      life (trace s) = on_connect h f /\
      ct s h 0 = Conf h 0 /\ hookable h 1 (ct s h 1) /\ st_ s h 3 = TInit /\ fact s = Some f /\
      server s = Some h /\ o_init s = Serv h 3
  | Ran h f o => h < paths /\ held h s /\ allow_says win n h s /\
      life (trace s) = on_connect h f ++ on_init h f o /\ st_ s h 3 = Serv h 3 /\
      bridge s = core_up o && o_result o /\ core s = core_up o && o_result o /\
      (if core_up o && o_result o then ct s h 1 = TDisconnect /\ hookable h 1 (o_shutdown s)
       else hookable h 1 (ct s h 1))
  | Down h f o => no_core s /\ qvi s = Some h /\ opened s = (if core_up o then [] else [h]) /\
      glib s = (if core_up o then None else Some h) /\
      exists a, hookable h 1 a /\ life (trace s) = on_connect h f ++ on_init h f o ++ on_down o a
  end.
