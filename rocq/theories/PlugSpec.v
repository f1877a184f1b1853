(** What can be seen of the plugin manager, and small specifications. *)
From Coq Require Import List ZArith Bool.
From Verif Require Import ListModel StrModel StrSpec PlugModel.
Import ListNotations.
Local Open Scope list_scope.

(** The objects in the plugin list, in order. *)
Definition listed (s : st) : list plugin :=
  flat_map (fun a => match getp s a with Some p => [p] | None => [] end) (plugins s).
Definition ids (s : st) : list Z := map p_id (listed s).
Definition is_loaded (p : plugin) : Prop := p_status p = Some Running \/ p_status p = Some Paused.
(** two spellings of a path that differ only in repeated slashes *)
Definition same_path (f g : str) : Prop := collapse f = collapse g.

(** States that a history leads to. *)
Definition reachable (s : st) : Prop := exists ops rs, run init ops = Some (s, rs).

(** Every listener of the plugins with other ids, in the order of the lists. *)
Definition listeners_of_others (s : st) (id : Z) : list listener :=
  flat_map p_events (filter (fun p => negb (p_id p =? id)%Z) (listed s)).
(** All listeners with the id of their plugin. *)
Definition all_listeners (s : st) : list (Z * listener) :=
  flat_map (fun p => map (fun l => (p_id p, l)) (p_events p)) (listed s).

(** An event of [kind] about [id] was announced: between the two states calls
    that are no notifications were made, and then every listener of every other
    plugin was notified once. *)
Definition announced (s s' : st) (k : kind) (id : Z) : Prop :=
  exists pre, log s' = log s ++ pre ++ map (fun l => CNote l k id) (listeners_of_others s' id) /\
    (forall l k' i, ~ In (CNote l k' i) pre).
Definition not_announced (s s' : st) : Prop :=
  exists pre, log s' = log s ++ pre /\ (forall l k i, ~ In (CNote l k i) pre).

(** Aliases: a map from names to values; an empty value deletes. *)
Fixpoint alias_of (hist : list (str * str)) (k : str) : option str :=    (* newest first *)
  match hist with
  | [] => None
  | (a, v) :: hist => if list_eq_dec Ascii.ascii_dec a k
                      then match v with [] => None | _ => Some v end
                      else alias_of hist k
  end.

(** The life of a plugin object as a machine over the calls it receives.
    [PRun seen]: loaded and not paused; [seen]: AllPluginsLoaded was called. *)
Inductive phase := PNew | PRun (seen : bool) | PPaused (seen : bool) | PRefused | PDead | PGone.
Definition subject (c : call) : option nat :=
  match c with
  | CLoad a _ _ _ | CAllLoaded a | CPause a _ | CUnpause a _ | CUnload a _ _ | CUnloadFn a => Some a
  | CNote _ _ _ | CUnlink _ _ _ => None
  end.
(** [None]: a call that must not be made in this phase *)
Definition next (q : phase) (c : call) : option phase :=
  match q, c with
  | PNew, CLoad _ _ _ ok => Some (if ok then PRun false else PRefused)
  | PRun false, CAllLoaded _ => Some (PRun true)
  | PRun b, CPause _ ok => Some (if ok then PPaused b else PRun b)
  | PPaused b, CUnpause _ ok => Some (if ok then PRun b else PPaused b)
  | PRun b, CUnload _ ok force => Some (if ok || force then PDead else PRun b)
  | PPaused b, CUnload _ ok force => Some (if ok || force then PDead else PPaused b)
  | (PNew | PRefused | PDead), CUnloadFn _ => Some PGone
  | _, _ => None
  end.
Fixpoint trace (a : nat) (q : phase) (l : list call) : option phase :=
  match l with
  | [] => Some q
  | c :: l => match subject c with
              | Some b => if Nat.eqb a b then match next q c with Some q => trace a q l | None => None end
                          else trace a q l
              | None => trace a q l
              end
  end.

(** Histories in which none of the findings recorded in DESIGN.md section 5 (C42)
    is triggered. *)
Definition no_unreg (acts : list act) : Prop := forall c, ~ In (AUnreg c) acts.
Definition api_fresh (s : st) (li : loadinfo) : Prop :=
  forall x p, li_api1 li = Some x \/ li_api2 li = Some x -> In p (listed s) -> p_api p <> Some x.
Definition not_pending (s : st) (a : nat) : Prop := ~ In a (map u_addr (pend s)).
Definition allowed (s : st) (o : op) : Prop :=
  match o with
  | OLoad _ _ li => no_unreg (fst (li_load li)) /\ api_fresh s li
  | OUnload id _ _ => forall a p, In a (plugins s) -> getp s a = Some p -> p_id p = id -> not_pending s a
  | ORetry id li _ => no_unreg (fst (li_load li)) /\ api_fresh s li /\ depth s = 0%nat /\
                      (forall a p, In a (plugins s) -> getp s a = Some p -> p_id p = id -> not_pending s a)
  | OUnloadAll _ => forall a, In a (plugins s) -> not_pending s a
  | _ => True
  end.
Fixpoint guarded (s : st) (ops : list op) : Prop :=
  match ops with
  | [] => True
  | o :: ops => allowed s o /\ forall s' r, step s o = Some (s', r) -> guarded s' ops
  end.

(** Histories in which no Retry succeeds (DESIGN.md section 5, C46), and in which
    plugins that are paused add no hooks. *)
Fixpoint never_retried (s : st) (ops : list op) : Prop :=
  match ops with
  | [] => True
  | o :: ops => forall s' r, step s o = Some (s', r) ->
                (match o with ORetry _ _ _ => r <> RBool true | _ => True end) /\ never_retried s' ops
  end.
Definition no_hook (acts : list act) : Prop := forall h, ~ In (AHook h) acts.
Definition silent_op (s : st) (o : op) : Prop :=
  match o with
  | OAct a acts => forall p, getp s a = Some p -> p_status p = Some Paused -> no_hook acts
  | OUnpause _ c => snd c = false -> no_hook (fst c)
  | OUnload id force c => forall p, In p (listed s) -> p_id p = id -> p_status p = Some Paused -> snd c || force = false -> no_hook (fst c)
  | _ => True
  end.
Fixpoint silent (s : st) (ops : list op) : Prop :=
  match ops with
  | [] => True
  | o :: ops => silent_op s o /\ forall s' r, step s o = Some (s', r) -> silent s' ops
  end.
