(** What users expect of delegates: they are values that name a function, or a method of an object;
    calling one makes that call; equal ones name the same.  Independent of the representation. *)
From Coq Require Import List ZArith Bool.
From Verif Require Import MfpModel MfpSpec DlgModel.
Import ListNotations.
Local Open Scope Z_scope.

Inductive value := Nothing | Fun (f : Z) | Method (m : mfp) (obj : Z).
Record values := Values { v_dels : Z -> option value; v_saves : Z -> option value }.
Definition no_values : values := Values (fun _ => None) (fun _ => None).
Definition put (f : Z -> option value) (k : Z) (v : value) : Z -> option value :=
  fun x => if x =? k then Some v else f x.
Definition fun_value (f : Z) : value := if f =? 0 then Nothing else Fun f.
Definition spec_step (s : values) (o : op) : option values :=
  let set a v := Some (Values (put (v_dels s) a v) (v_saves s)) in
  let exists_ a (r : option values) := match v_dels s a with Some _ => r | None => None end in
  match o with
  | New a => set a Nothing
  | NewCopy a b => match v_dels s b with Some v => set a v | None => None end
  | Assign a b => exists_ a (match v_dels s b with Some v => set a v | None => None end)
  | BindM a m obj _ => exists_ a (set a (Method m obj))
  | BindF a f => exists_ a (set a (fun_value f))
  | Clear a => exists_ a (set a Nothing)
  | Save k b => match v_dels s b with Some v => Some (Values (v_dels s) (put (v_saves s) k v)) | None => None end
  | Load a k => exists_ a (match v_saves s k with Some v => set a v | None => None end)
  end.
Fixpoint spec_run (s : values) (l : list op) : option values :=
  match l with [] => Some s | o :: l => match spec_step s o with Some s => spec_run s l | None => None end end.

(** The call itself, as the compiler makes it for obj->*m *)
Definition direct_call (PSIZE : Z) (mem : Z -> Z) (m : mfp) (obj : Z) : option call :=
  match m with
  | MG g => if g_ptr g =? 0 then None else let (t, this) := abi_call PSIZE mem g obj in Some (CallMethod t this)
  | MM f vbptr =>
      if m_code f =? 0 then None
      else option_map (CallMethod (Direct (m_code f))) (ms_this PSIZE mem vbptr (m_ints f) obj)
  end.
Definition value_call (PSIZE : Z) (mem : Z -> Z) (v : value) : option call :=
  match v with
  | Nothing => None
  | Fun f => Some (CallFunction f)
  | Method m obj => direct_call PSIZE mem m obj
  end.

(** ** Assumptions about programs *)
Definition word (PSIZE x : Z) : Prop := 0 <= x < 2 ^ (8 * PSIZE).
(** pointers of the right compiler, made of words, not to FastDelegate's private InvokeStaticFunction;
    with MSVC the class's inheritance is known (at most two ints) *)
Definition mfp_ok (PSIZE : Z) (msvc : bool) (inv : Z) (m : mfp) : Prop :=
  match m with
  | MG g => msvc = false /\ word PSIZE (g_ptr g) /\ word PSIZE (g_adj g) /\ g_ptr g <> inv
  | MM f _ => msvc = true /\ word PSIZE (m_code f) /\ m_code f <> inv /\ (length (m_ints f) <= 2)%nat
  end.
(** what is at the address 0 is neither an object nor a delegate *)
Definition op_ok (PSIZE : Z) (msvc : bool) (inv : Z) (o : op) : Prop :=
  match o with
  | BindM a m obj _ => mfp_ok PSIZE msvc inv m /\ word PSIZE obj
  | BindF a f => word PSIZE f
  | New a | NewCopy a _ => word PSIZE a
  | _ => True
  end.
(** the base classes of the objects have not moved since the method was bound (MSVC finds them when
    it binds, not when it calls) *)
Definition steady (PSIZE : Z) (mem : Z -> Z) (o : op) : Prop :=
  match o with
  | BindM _ (MM f vbptr) obj mem' => ms_this PSIZE mem' vbptr (m_ints f) obj = ms_this PSIZE mem vbptr (m_ints f) obj
  | _ => True
  end.

(** the value of the delegate at [a] after the program [l] *)
Definition holds (l : list op) (a : Z) (v : value) : Prop :=
  exists s, spec_run no_values l = Some s /\ v_dels s a = Some v.

(** pointers that are not null *)
Definition real (v : value) : Prop :=
  match v with Method (MG g) _ => g_ptr g <> 0 | Method (MM f _) _ => m_code f <> 0 | _ => True end.
(** the class's inheritance and the objects do not matter, only the function *)
Definition same_function (m m' : mfp) : Prop :=
  match m, m' with
  | MG g, MG h => g_ptr g = g_ptr h /\ g_adj g = g_adj h
  | MM f _, MM f' _ => m_code f = m_code f'
  | _, _ => False
  end.
(** what == without the hack compares: the addresses of the delegates if they hold functions, the
    functions only if they hold methods *)
Definition safe_same (a : Z) (v : value) (b : Z) (w : value) : Prop :=
  match v, w with
  | Nothing, Nothing => True
  | Fun f, Fun g => f = g /\ a = b
  | Method m _, Method m' _ => same_function m m'
  | _, _ => False
  end.

(** the machine, and InvokeStaticFunction: a function, whose address is even with GCC (the odd ones
    are virtual) *)
Definition machine (PSIZE : Z) (msvc : bool) (inv : Z) : Prop :=
  (PSIZE = 4 \/ PSIZE = 8) /\ inv <> 0 /\ word PSIZE inv /\ (msvc = false -> inv mod 2 = 0).
(** programs allowed, if delegates are called or compared in the memory [mem] *)
Definition program_ok (PSIZE : Z) (msvc : bool) (inv : Z) (mem : Z -> Z) (l : list op) : Prop :=
  Forall (op_ok PSIZE msvc inv) l /\ Forall (steady PSIZE mem) l.
