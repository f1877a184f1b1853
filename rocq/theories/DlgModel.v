(** The delegates that hold the handlers of hooks: core/sourcehook/FastDelegate.h, for GCC/clang and
    MSVC, with FASTDELEGATE_USESTATICFUNCTIONHACK (line 75 defines it) and without (line 203).
    Not modelled: the compilers that are not used any more (Digital Mars, Metrowerks, VC6), const
    (bindconstmemfunc, 693-699, 702-707, does the same as bindmemfunc), FastDelegate<R (...)>
    (985-1015, derived from FastDelegate with nothing added). *)
From Coq Require Import List ZArith Bool.
From Verif Require Import MfpModel MfpSpec.
Import ListNotations.
Local Open Scope Z_scope.

Section Dlg.
Variable PSIZE : Z.
(** which compiler; which version of the closures *)
Variable msvc hack : bool.
(** the address of FastDelegate::InvokeStaticFunction (952-954) of this signature *)
Variable inv : Z.

(** class DelegateMemento (567-578).  m_pFunction is a pointer to member of GenericClass: two words
    with GCC, one with MSVC (__single_inheritance, 268; [g_adj] is then 0). *)
Record memento := Memento { d_this : Z; d_fn : gmfp; d_static : Z }.
(** the null pointer to member as the compiler writes it *)
Definition null_fn : gmfp := Gmfp 0 0.
(** DelegateMemento() and clear (582-590) *)
Definition cleared : memento := Memento 0 null_fn 0.

(** comparing pointers to members: Itanium ABI 2.3 (the adjustments only count if the pointers are
    not null); one word with MSVC *)
Definition fn_eqb (x y : gmfp) : bool :=
  (g_ptr x =? g_ptr y) && (msvc || (g_ptr x =? 0) || (g_adj x =? g_adj y)).

(** IsEqual (592-604) *)
Definition is_equal (d x : memento) : bool :=
  if hack then (d_this d =? d_this x) && fn_eqb (d_fn d) (d_fn x)
  else
    if negb (fn_eqb (d_fn d) (d_fn x)) then false
    else if negb (d_static d =? d_static x) then false
    else if negb (d_static d =? 0) then d_this d =? d_this x
    else true.

(** memcmp(...) < 0 on the bytes of two pointers to members (616) *)
Fixpoint le_bytes (n : nat) (v : Z) : list Z := match n with O => [] | S n => (v mod 256) :: le_bytes n (v / 256) end.
Definition fn_bytes (x : gmfp) : list Z :=
  le_bytes (Z.to_nat PSIZE) (g_ptr x) ++ if msvc then [] else le_bytes (Z.to_nat PSIZE) (g_adj x).
Fixpoint memcmp_lt (x y : list Z) : bool :=
  match x, y with
  | a :: x, b :: y => if a =? b then memcmp_lt x y else a <? b
  | _, _ => false
  end.
(** IsLess (606-618) *)
Definition is_less (d right : memento) : bool :=
  if negb hack && (negb (d_static d =? 0) || negb (d_static right =? 0)) then d_static d <? d_static right
  else if negb (d_this d =? d_this right) then d_this d <? d_this right
  else memcmp_lt (fn_bytes (d_fn d)) (fn_bytes (d_fn right)).

(** operator ! and empty (622-625) *)
Definition is_empty (d : memento) : bool := (d_this d =? 0) && fn_eqb (d_fn d) null_fn.

(** *** SimplifyMemFunc<N>::Convert (294-549): the pointers to members that can be bound *)
Inductive mfp := MG (m : gmfp) | MM (m : mmfp) (vbptr : Z).
(** sizeof of MSVC's pointers: the code pointer and the ints, padded to the alignment *)
Definition ms_size (m : mmfp) : Z := m_words PSIZE m * PSIZE.
(** [None]: does not compile.  N is chosen by sizeof (680).  With 2 ints (397-424) the pointer is
    called with its code replaced by a function that returns [this]: the compiler's own adjustment.
    With 3 (465-501) the struct's member is called m_funcaddress and [u.s.funcaddress] is used. *)
Definition convert (mem : Z -> Z) (obj : Z) (f : mfp) : option (Z * gmfp) :=
  match f with
  | MG g => if msvc then None else Some (obj, g)
  | MM m vbptr =>
      if negb msvc then None
      else if ms_size m =? PSIZE then Some (obj, Gmfp (m_code m) 0)
      else if ms_size m =? PSIZE + 4 then Some (wp PSIZE (obj + nth 0 (m_ints m) 0), Gmfp (m_code m) 0)
      else if ms_size m =? PSIZE + 8 then
        option_map (fun t => (t, Gmfp (m_code m) 0)) (ms_this PSIZE mem vbptr (m_ints m) obj)
      else None
  end.

(** *** ClosurePtr (672-814) *)
(** bindmemfunc (678-685) *)
Definition bindmemfunc (mem : Z -> Z) (obj : Z) (f : mfp) (d : memento) : option memento :=
  match convert mem obj f with
  | Some (t, g) => Some (Memento t g (if hack then d_static d else 0))
  | None => None
  end.
(** the pointer &FastDelegate::InvokeStaticFunction: FastDelegate has no bases *)
Definition inv_fn : gmfp := Gmfp inv 0.
(** bindstaticfunc (739-749 and 778-797); [parent] is the address of the delegate *)
Definition bindstaticfunc (parent f : Z) (d : memento) : memento :=
  if hack then Memento f (if f =? 0 then null_fn else inv_fn) (d_static d)
  else if f =? 0 then Memento (d_this d) null_fn f
  else Memento parent inv_fn f.
(** SetMementoFrom (644-650); without the hack there is a third member *)
Definition set_memento_from (right : memento) (d : memento) : memento :=
  Memento (d_this right) (d_fn right) (if hack then d_static d else d_static right).
(** CopyFrom (730-736, 769-772) *)
Definition copy_from (parent : Z) (x d : memento) : memento :=
  let d := set_memento_from x d in
  if hack then d
  else if negb (d_static d =? 0) then Memento parent (d_fn d) (d_static d) else d.

(** *** FastDelegate (861-955): programs.  Delegates and mementos have addresses. *)
Record store := Store { dels : Z -> option memento; saves : Z -> option memento }.
Definition empty_store : store := Store (fun _ => None) (fun _ => None).
Definition upd (f : Z -> option memento) (k : Z) (v : memento) : Z -> option memento :=
  fun x => if x =? k then Some v else f x.
Inductive op :=
| New (a : Z)                                        (* FastDelegate() *)
| NewCopy (a b : Z)                                  (* FastDelegate(const FastDelegate &) *)
| Assign (a b : Z)                                   (* operator = (const FastDelegate &) *)
| BindM (a : Z) (f : mfp) (obj : Z) (mem : Z -> Z)   (* bind, or the constructor, with a method; the memory then *)
| BindF (a : Z) (f : Z)                              (* bind, constructor or = with a function *)
| Clear (a : Z)
| Save (s b : Z)                                     (* DelegateMemento s(b.GetMemento()), s = ... *)
| Load (a s : Z).                                    (* a.SetMemento(s) *)
(** [None]: use of a delegate that does not exist, or a program that does not compile *)
Definition step (st : store) (o : op) : option store :=
  match o with
  | New a => Some (Store (upd (dels st) a cleared) (saves st))
  | NewCopy a b =>
      match dels st b with
      | Some x => Some (Store (upd (dels st) a (copy_from a x cleared)) (saves st))
      | None => None
      end
  | Assign a b =>
      match dels st a, dels st b with
      | Some d, Some x => Some (Store (upd (dels st) a (copy_from a x d)) (saves st))
      | _, _ => None
      end
  | BindM a f obj mem =>
      match dels st a with
      | Some d => match bindmemfunc mem obj f d with
                  | Some d => Some (Store (upd (dels st) a d) (saves st))
                  | None => None
                  end
      | None => None
      end
  | BindF a f =>
      match dels st a with
      | Some d => Some (Store (upd (dels st) a (bindstaticfunc a f d)) (saves st))
      | None => None
      end
  | Clear a =>
      match dels st a with
      | Some d => Some (Store (upd (dels st) a cleared) (saves st))
      | None => None
      end
  | Save s b =>
      match dels st b with
      | Some x => Some (Store (dels st) (upd (saves st) s (set_memento_from x cleared)))
      | None => None
      end
  | Load a s =>
      match dels st a, saves st s with
      | Some d, Some x => Some (Store (upd (dels st) a (copy_from a x d)) (saves st))
      | _, _ => None
      end
  end.
Fixpoint run (st : store) (l : list op) : option store :=
  match l with
  | [] => Some st
  | o :: l => match step st o with Some st => run st l | None => None end
  end.

(** operator() (924-926): the call of a pointer to member of GenericClass; if that is
    InvokeStaticFunction, it calls GetStaticFunction() (753-755: the member of the delegate it got as
    [this]; 803-808: [this] itself).  [None]: undefined. *)
Inductive call := CallMethod (t : target) (this : Z) | CallFunction (f : Z).
Definition generic_call (mem : Z -> Z) (g : gmfp) (obj : Z) : option (target * Z) :=
  if fn_eqb g null_fn then None
  else if msvc then Some (Direct (g_ptr g), obj) else Some (abi_call PSIZE mem g obj).
Definition get_static (st : store) (this : Z) : option Z :=
  if hack then Some this else option_map d_static (dels st this).
Definition call_function (f : Z) : option call := if f =? 0 then None else Some (CallFunction f).
Definition invoke (st : store) (mem : Z -> Z) (a : Z) : option call :=
  match dels st a with
  | None => None
  | Some d =>
      match generic_call mem (d_fn d) (d_this d) with
      | None => None
      | Some (Slot s, this) => Some (CallMethod (Slot s) this)
      | Some (Direct c, this) =>
          if c =? inv then match get_static st this with Some f => call_function f | None => None end
          else Some (CallMethod (Direct c) this)
      end
  end.
(** operator ==, <, empty and == with a function (883-895, 939-953; 810-815): in the last one
    GetStaticFunction() is called for the closure itself, whose address is that of the delegate *)
Definition equal (st : store) (a b : Z) : option bool :=
  match dels st a, dels st b with Some x, Some y => Some (is_equal x y) | _, _ => None end.
Definition less (st : store) (a b : Z) : option bool :=
  match dels st a, dels st b with Some x, Some y => Some (is_less x y) | _, _ => None end.
Definition bound_nothing (st : store) (a : Z) : option bool := option_map is_empty (dels st a).
Definition equal_function (st : store) (a f : Z) : option bool :=
  if f =? 0 then bound_nothing st a
  else match dels st a with
       | None => None
       | Some _ => option_map (Z.eqb f) (get_static st a)
       end.
End Dlg.
