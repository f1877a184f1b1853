(** What is expected of console commands and variables of plugins on Source 2,
    told from the calls alone. *)
From Coq Require Import List ZArith Bool.
From Verif Require Import S2cModel.
Import ListNotations.
Local Open Scope Z_scope.

(** One registration that is still in force: plugin, whether it is a command, object. *)
Definition reg : Type := (Z * bool * Z)%type.

(** Who is loaded (id and API pointer), which ids were ever given, what is in force. *)
Record sp := Sp { on : list (Z * Z); used : list Z; force : list reg }.

Definition who (x : sp) (api : Z) : option Z :=
  option_map fst (find (fun p => snd p =? api) (on x)).

Definition same (a b : reg) : bool :=
  (fst (fst a) =? fst (fst b)) && eqb (snd (fst a)) (snd (fst b)) && (snd a =? snd b).

Fixpoint take1 (a : reg) (l : list reg) : list reg :=
  match l with
  | [] => []
  | b :: r => if same b a then r else b :: take1 a r
  end.

Definition gone (id : Z) (x : sp) : sp :=
  Sp (filter (fun p => negb (fst p =? id)) (on x)) (used x)
     (filter (fun a => negb (fst (fst a) =? id)) (force x)).

Definition add (x : sp) (api : Z) (b : bool) (r : Z) : sp :=
  match who x api with Some id => Sp (on x) (used x) (force x ++ [(id, b, r)]) | None => x end.
Definition del (x : sp) (api : Z) (b : bool) (r : Z) : sp :=
  match who x api with Some id => Sp (on x) (used x) (take1 (id, b, r) (force x)) | None => x end.

Definition next (x : sp) (o : op) : sp :=
  match o with
  | ECmd _ _ | EVar _ => x
  | Loaded id api => Sp (on x ++ [(id, api)]) (id :: used x) (force x)
  | RegCmd api r => add x api true r
  | RegVar api r => add x api false r
  | UnregCmd api r => del x api true r
  | UnregVar api r => del x api false r
  | Refused id | Unload id => gone id x
  end.
Definition nexts (os : list op) : sp := fold_left next os (Sp [] [] []).

(** Ids are given once, a loaded plugin has an API. *)
Fixpoint lawful (x : sp) (os : list op) : Prop :=
  match os with
  | [] => True
  | o :: r =>
      match o with
      | Loaded id api => ~ In id (used x) /\ api <> 0
      | RegCmd api _ | RegVar api _ | UnregCmd api _ | UnregVar api _ => api <> 0
      | _ => True
      end /\ lawful (next x o) r
  end.
Definition lawful0 (os : list op) : Prop := lawful (Sp [] [] []) os.

Section View.
Variables hc hv : Z -> Z.

(** What the call [o] does to command [k]: off, shown, given callbacks, or nothing. *)
Inductive touch := Off | Shown | Calls (fl : Z) | Nothing.

Definition touch_cmd (x : sp) (k : Z) (o : op) : touch :=
  match o with
  | ECmd j fl => if j =? k then Calls fl else Nothing
  | RegCmd _ r => if hc r =? k then Shown else Nothing
  | UnregCmd _ r => if hc r =? k then Off else Nothing
  | Refused id | Unload id =>
      if existsb (fun a => (fst (fst a) =? id) && snd (fst a) && (hc (snd a) =? k)) (force x) then Off else Nothing
  | _ => Nothing
  end.

(** The command as a user sees it: is it in the console's search, does it do
    something, and which other flags it has. *)
Record look := Look { in_search : bool; works : bool; others : Z }.
Definition look0 (fl : Z) (calls : bool) : look :=
  Look (negb (Z.testbit fl 1)) calls (Z.ldiff fl 2).
Definition seen (l : option look) (t : touch) : option look :=
  match t, l with
  | Off, Some v => Some (Look false false (others v))
  | Shown, Some v => Some (Look true (works v) (others v))
  | Calls fl, None => Some (look0 fl true)
  | Calls _, Some v => Some (Look (in_search v) true (others v))
  | _, _ => l
  end.
Fixpoint cmd_look (x : sp) (k : Z) (l : option look) (os : list op) : option look :=
  match os with
  | [] => l
  | o :: r => cmd_look (next x o) k (seen l (touch_cmd x k o)) r
  end.

(** A variable is usable or not. *)
Definition var_next (x : sp) (k : Z) (l : option bool) (o : op) : option bool :=
  match o with
  | EVar j => if j =? k then Some true else l
  | UnregVar _ r => if hv r =? k then option_map (fun _ => false) l else l
  | Refused id | Unload id =>
      if existsb (fun a => (fst (fst a) =? id) && negb (snd (fst a)) && (hv (snd a) =? k)) (force x)
      then option_map (fun _ => false) l else l
  | _ => l
  end.
Fixpoint var_look (x : sp) (k : Z) (l : option bool) (os : list op) : option bool :=
  match os with
  | [] => l
  | o :: r => var_look (next x o) k (var_next x k l o) r
  end.

Definition shown_cmd (s : st) (k : Z) : option look :=
  option_map (fun c => look0 (c_flags c) (c_calls c)) (cmds s k).
(** 'Usable' when the data is valid and the callbacks are there; the third case,
    one without the other, is not expected. *)
Definition shown_var (s : st) (k : Z) : option (option bool) :=
  option_map (fun v => match v_valid v, v_calls v with
                       | true, true => Some true
                       | false, false => Some false
                       | _, _ => None
                       end) (vars s k).

(** Every reference that is handed over names something the engine made before. *)
Fixpoint named (mc mv : list Z) (os : list op) : Prop :=
  match os with
  | [] => True
  | o :: r =>
      match o with
      | RegCmd _ c | UnregCmd _ c => In (hc c) mc
      | RegVar _ c | UnregVar _ c => In (hv c) mv
      | _ => True
      end /\
      named (match o with ECmd k _ => k :: mc | _ => mc end) (match o with EVar k => k :: mv | _ => mv end) r
  end.
End View.
