(** Model of SourceHook::String (core/sourcehook/sh_string.h).

    A String is its pointer v (NULL or an array of a_size chars) and a_size.  An
    array is a list of chars; [None]: indeterminate (not written since new[]).
    The results are [None] for undefined behaviour: reading or writing outside of
    the array, reading indeterminate chars, use of a deleted array, strcpy or
    strcat between overlapping strings.  size_t is Z modulo 2^64. *)
From Coq Require Import List ZArith Bool Arith Ascii.
From Verif Require Import ListModel StrModel.
Import ListNotations.
Local Open Scope Z_scope.

Definition ubuf := list (option ascii).

(** sh_string.h:393-394; a_size is the length of the array ([None]: NULL, 0) *)
Definition sobj := option ubuf.

Definition size_mod : Z := 2 ^ 64.
Definition w (x : Z) : Z := x mod size_mod.
(** sh_string.h:396 *)
Definition npos : Z := size_mod - 1.

Definition rdc (b : ubuf) (i : Z) : option ascii :=
  if i <? 0 then None else match nth_error b (Z.to_nat i) with Some (Some c) => Some c | _ => None end.
Fixpoint set_nth (b : ubuf) (i : nat) (c : ascii) : option ubuf :=
  match b, i with
  | [], _ => None
  | _ :: b', O => Some (Some c :: b')
  | x :: b', S i' => do r <- set_nth b' i' c; Some (x :: r)
  end.
Definition wrc (b : ubuf) (i : Z) (c : ascii) : option ubuf := if i <? 0 then None else set_nth b (Z.to_nat i) c.

(** the C string in an array *)
Fixpoint cs (b : ubuf) : option str :=
  match b with
  | Some c :: b' => if Ascii.eqb c NUL then Some [] else do s <- cs b'; Some (c :: s)
  | _ => None
  end.
Definition len (s : str) : Z := Z.of_nat (length s).

(** strcpy(b + i, s) *)
Fixpoint put_str (b : ubuf) (i : Z) (s : str) : option ubuf :=
  match s with
  | [] => wrc b i NUL
  | c :: s' => do b <- wrc b i c; put_str b (i + 1) s'
  end.

(** strcmp, up to the sign *)
Fixpoint strcmp (a b : str) : Z :=
  match a, b with
  | [], [] => 0
  | [], _ => -1
  | _, [] => 1
  | c :: a', d :: b' => if Ascii.eqb c d then strcmp a' b' else if (nat_of_ascii c <? nat_of_ascii d)%nat then -1 else 1
  end.

Definition a_size (v : sobj) : Z := match v with Some b => Z.of_nat (length b) | None => 0 end.

(** Grow (sh_string.h:378-391); the result also tells whether v was replaced *)
Definition grow (v : sobj) (d : Z) (copy : bool) : option (sobj * bool) :=
  if d <=? a_size v then Some (v, false)
  else
    let n := repeat None (Z.to_nat (d + 1)) in
    match v with
    | Some b => do n <- (if copy then do s <- cs b; put_str n 0 s else Some n); Some (Some n, true)
    | None => do n <- put_str n 0 []; Some (Some n, true)
    end.

(** c_str (sh_string.h:64-66) *)
Definition c_str (v : sobj) : option str := match v with Some b => cs b | None => Some [] end.

(** A `const char *` argument: NULL, a string outside of this object, or a pointer
    v + i into this object's array *)
Inductive cptr := PNull | PLit (s : str) | POwn (i : nat).

Definition load (v : sobj) (p : cptr) : option str :=
  match p with
  | PNull => None
  | PLit s => Some s
  | POwn i => do b <- v; cs (skipn i b)
  end.

(** size (sh_string.h:129-135) *)
Definition size_s (v : sobj) : option Z := do s <- c_str v; Some (len s).

(** append(C string) (sh_string.h:68-72).  With a pointer into the own array:
    if the array is replaced, t is dangling; if not, strcat overlaps. *)
Definition append_s (v : sobj) (t : cptr) : option sobj :=
  do n <- size_s v;
  do s <- load v t;
  do (v, moved) <- grow v (n + len s + 1) true;
  match t with
  | POwn _ => None
  | _ => do b <- v; do x <- cs b; do b <- put_str b (len x) s; Some (Some b)
  end.

(** append(char) (sh_string.h:74-80) *)
Definition append_c (v : sobj) (c : ascii) : option sobj :=
  do n <- size_s v;
  do (v, _) <- grow v (n + 2) true;
  do b <- v; do b <- wrc b n c; do b <- wrc b (n + 1) NUL; Some (Some b).

(** clear (sh_string.h:103-107) *)
Definition clear_s (v : sobj) : option sobj :=
  match v with Some b => do b <- wrc b 0 NUL; Some (Some b) | None => Some None end.

(** assign(C string) (sh_string.h:92-101) *)
Definition assign_s (v : sobj) (d : cptr) : option sobj :=
  match d with
  | PNull => clear_s v
  | POwn _ => None
  | PLit s => do (v, _) <- grow v (len s + 1) false; do b <- v; do b <- put_str b 0 s; Some (Some b)
  end.

(** compare (sh_string.h:109-115) *)
Definition compare_s (v : sobj) (d : cptr) : option Z := do s <- load v d; do x <- c_str v; Some (strcmp x s).

(** empty (sh_string.h:118-127) *)
Definition empty_s (v : sobj) : option bool :=
  match v with None => Some true | Some b => do c <- rdc b 0; Some (Ascii.eqb c NUL) end.

(** find (sh_string.h:137-154): from [i], [n] rounds *)
Fixpoint find_fwd (n : nat) (b : ubuf) (c : ascii) (i : Z) : option Z :=
  match n with
  | O => Some npos
  | S n' => do x <- rdc b i; if Ascii.eqb x c then Some i else find_fwd n' b c (i + 1)
  end.
Definition find_s (v : sobj) (c : ascii) (index : Z) : option Z :=
  do n <- size_s v;
  if n <? 1 then Some npos
  else if index >=? n then Some npos
  else do b <- v; find_fwd (Z.to_nat (n - index)) b c index.

(** find_last_of (sh_string.h:156-178): [n] rounds downwards, i = n - 1, ..., 0 *)
Fixpoint find_bwd (n : nat) (b : ubuf) (c : ascii) : option Z :=
  match n with
  | O => Some npos
  | S n' => do x <- rdc b (Z.of_nat n'); if Ascii.eqb x c then Some (Z.of_nat n') else find_bwd n' b c
  end.
Definition find_last_s (v : sobj) (c : ascii) (index : Z) : option Z :=
  do n <- size_s v;
  if n <? 1 then Some npos
  else if index >=? n then Some npos
  else do b <- v; find_bwd (Z.to_nat ((if index =? npos then n - 1 else index) + 1)) b c.

(** is_space (sh_string.h:180-190) *)
Definition is_space (c : ascii) : bool := existsb (Ascii.eqb c) (map ascii_of_nat [12; 10; 9; 13; 11; 32]%nat).

(** the loop of erase (sh_string.h:265-285) *)
Fixpoint erase_loop (n : nat) (b : ubuf) (i ln start num : Z) (flag : bool) : option ubuf :=
  match n with
  | O => Some b
  | S n' =>
      if (i >=? start) && (i <? w (start + num)) || flag
      then do b <- (if w (i + num) <? ln then do c <- rdc b (w (i + num)); wrc b i c else wrc b i NUL);
           erase_loop n' b (i + 1) ln start num true
      else erase_loop n' b (i + 1) ln start num flag
  end.
(** erase (sh_string.h:255-288) *)
Definition erase_s (v : sobj) (start num : Z) : option sobj :=
  match v with
  | None => Some None
  | Some b =>
      do n <- size_s v;
      let num := if (num =? npos) || (w (start + num) >? w (n - start)) then w (n - start) else num in
      do b <- erase_loop (Z.to_nat n) b 0 n start num false;
      do b <- wrc b (w (n - num)) NUL;
      Some (Some b)
  end.

(** the loops of trim (sh_string.h:214-221 and 233-242) *)
Fixpoint trim_left (n : nat) (b : ubuf) (i ln : Z) : option sobj :=
  match n with
  | O => Some (Some b)
  | S n' => do c <- rdc b i;
            if negb (is_space c) || is_space c && (i =? ln - 1) then erase_s (Some b) 0 i
            else trim_left n' b (i + 1) ln
  end.
(** i = k - 1 *)
Fixpoint trim_right (k : nat) (b : ubuf) (j : Z) : option sobj :=
  match k with
  | O => Some (Some b)
  | S i => do c <- rdc b (Z.of_nat i);
           if negb (is_space c) || is_space c && (i =? 0)%nat then erase_s (Some b) (Z.of_nat i + 1) j
           else trim_right i b (j + 1)
  end.
(** trim (sh_string.h:192-253) *)
Definition trim_s (v : sobj) : option sobj :=
  match v with
  | None => Some None
  | Some b =>
      do s <- cs b;
      do c0 <- rdc b 0;
      if (len s =? 1) && is_space c0 then clear_s v
      else
        do v <- (if is_space c0 then trim_left (length s) b 0 (len s) else Some v);
        do b <- v;
        do s <- cs b;
        if len s <? 1 then Some v
        else
          do c <- rdc b (len s - 1);
          do v <- (if is_space c then trim_right (length s) b 0 else Some v);
          do b <- v;
          do c <- rdc b 0;
          if (len s =? 1) && is_space c then clear_s v else Some v
  end.

(** for (i=index; i<index+num; i++) ns.append(v[i]) (sh_string.h:317-318), [n] rounds *)
Fixpoint sub_loop (n : nat) (b : ubuf) (i : Z) (ns : sobj) : option sobj :=
  match n with
  | O => Some ns
  | S n' => do c <- rdc b i; do ns <- append_c ns c; sub_loop n' b (i + 1) ns
  end.
(** substr (sh_string.h:290-321) *)
Definition substr_s (v : sobj) (index num : Z) : option sobj :=
  match v with
  | None => assign_s None (PLit [])
  | Some b =>
      do n <- size_s v;
      if index >=? n then Some None
      else
        let num := if num =? npos then w (n - index) else if w (index + num) >=? n then w (n - index) else num in
        do (ns, _) <- grow None (w (num + 2)) true;
        sub_loop (Z.to_nat (w (index + num) - index)) b index ns
  end.

(** c &= ~(1<<5) *)
Definition clear_bit5 (c : ascii) : ascii :=
  match c with Ascii b0 b1 b2 b3 b4 _ b6 b7 => Ascii b0 b1 b2 b3 b4 false b6 b7 end.
(** toLower (sh_string.h:323-334) *)
Fixpoint lower_loop (n : nat) (b : ubuf) (i : Z) : option ubuf :=
  match n with
  | O => Some b
  | S n' => do c <- rdc b i;
            do b <- (if (65 <=? nat_of_ascii c)%nat && (nat_of_ascii c <=? 90)%nat then wrc b i (clear_bit5 c) else Some b);
            lower_loop n' b (i + 1)
  end.
Definition lower_s (v : sobj) : option sobj :=
  match v with None => Some None | Some b => do s <- cs b; do b <- lower_loop (length s) b 0; Some (Some b) end.

(** operator[] and at (sh_string.h:349-365): [None] for the result -1 *)
Definition at_s (v : sobj) (i : Z) : option (option ascii) :=
  do n <- size_s v; if i >=? n then Some None else do b <- v; do c <- rdc b i; Some (Some c).
(** at(size_t, char) (sh_string.h:367-375) *)
Definition put_s (v : sobj) (i : Z) (c : ascii) : option (sobj * bool) :=
  do n <- size_s v; if i >=? n then Some (v, false) else do b <- v; do b <- wrc b i c; Some (Some b, true).

(** Programs: Strings are named by numbers; the pointers are literals or come from
    c_str() of a String (in which case an offset can be added). *)
Inductive cexp := CNull | CLit (s : str) | CStr (l i : nat).

Inductive sop :=
| SNew (l : nat) (e : option cexp)      (* String(), String(C string) *)
| SCopy (l m : nat)                     (* String(const String &) *)
| SDestroy (l : nat)
| SAssign (l : nat) (e : cexp)          (* assign, operator= *)
| SAppend (l : nat) (e : cexp)          (* append(C string) and, with CStr m 0, append(String &) *)
| SAppendC (l : nat) (c : ascii)
| SClear (l : nat)
| SCompare (l : nat) (e : cexp)         (* compare; == compares with 0 *)
| SEmpty (l : nat) | SSize (l : nat) | SText (l : nat) (* c_str *)
| SFind (l : nat) (c : ascii) (i : Z) | SFindLast (l : nat) (c : ascii) (i : Z)
| STrim (l : nat) | SErase (l : nat) (i n : Z)
| SSubstr (l m : nat) (i n : Z)         (* String l = m.substr(i, n) *)
| SLower (l : nat)
| SAt (l : nat) (i : Z) | SPut (l : nat) (i : Z) (c : ascii).

Inductive sres := SUnit | SNum (z : Z) | SBool (b : bool) | SChar (c : option ascii) | SStr (s : str).

Definition strs := nat -> option sobj.

(** the pointer as seen by a member function of [l] *)
Definition ptr_of (s : strs) (l : nat) (e : cexp) : option cptr :=
  match e with
  | CNull => Some PNull
  | CLit t => Some (PLit t)
  | CStr m i =>
      do v <- s m;
      match v with
      | None => if (i =? 0)%nat then Some (PLit []) else None
      | Some b => if (m =? l)%nat then Some (POwn i) else do t <- cs (skipn i b); Some (PLit t)
      end
  end.

Definition keep (s : strs) (l : nat) (r : option sobj) : option (strs * sres) :=
  do v <- r; Some (mset s l (Some v), SUnit).

Definition sstep (s : strs) (o : sop) : option (strs * sres) :=
  match o with
  | SNew l e => match s l with
                | Some _ => None
                | None => match e with None => keep s l (Some None) | Some e => do p <- ptr_of s l e; keep s l (assign_s None p) end
                end
  | SCopy l m => match s l with Some _ => None | None => do v <- s m; do t <- c_str v; keep s l (assign_s None (PLit t)) end
  | SDestroy l => do v <- s l; Some (mset s l None, SUnit)
  | SAssign l e => do v <- s l; do p <- ptr_of s l e; keep s l (assign_s v p)
  | SAppend l e => do v <- s l; do p <- ptr_of s l e; keep s l (append_s v p)
  | SAppendC l c => do v <- s l; keep s l (append_c v c)
  | SClear l => do v <- s l; keep s l (clear_s v)
  | SCompare l e => do v <- s l; do p <- ptr_of s l e; do z <- compare_s v p; Some (s, SNum z)
  | SEmpty l => do v <- s l; do b <- empty_s v; Some (s, SBool b)
  | SSize l => do v <- s l; do z <- size_s v; Some (s, SNum z)
  | SText l => do v <- s l; do t <- c_str v; Some (s, SStr t)
  | SFind l c i => do v <- s l; do z <- find_s v c i; Some (s, SNum z)
  | SFindLast l c i => do v <- s l; do z <- find_last_s v c i; Some (s, SNum z)
  | STrim l => do v <- s l; keep s l (trim_s v)
  | SErase l i n => do v <- s l; keep s l (erase_s v i n)
  | SSubstr l m i n => match s l with Some _ => None | None => do v <- s m; keep s l (substr_s v i n) end
  | SLower l => do v <- s l; keep s l (lower_s v)
  | SAt l i => do v <- s l; do c <- at_s v i; Some (s, SChar c)
  | SPut l i c => do v <- s l; do (v, r) <- put_s v i c; Some (mset s l (Some v), SBool r)
  end.

Fixpoint srun (s : strs) (ops : list sop) : option (strs * list sres) :=
  match ops with
  | [] => Some (s, [])
  | o :: l => do (s, r) <- sstep s o; do (s, rs) <- srun s l; Some (s, r :: rs)
  end.
Definition no_strs : strs := fun _ => None.
