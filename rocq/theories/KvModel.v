(** Model of the reading of a VDF file.
    Sources: /repo/core/provider/source/provider_source.cpp 157-205 (ProcessVDF), 613-641
    (KVLoadFromFile, for the original engine); /repo/core/provider/source2/provider_source2.cpp
    168-208 (ProcessVDF).
    The file system (Open, Size, Read), the parser of the engine (LoadFromBuffer, LoadFromFile) and the
    old contents of the scratch memory are arguments.  A use of something that is not there (a closed
    file, memory outside the scratch, a deleted object) is [None].
    Simplified: a KeyValues object is its number and the texts of the keys "file" and "alias"; the bytes of
    [path] and [alias] are the formatted texts (VdfModel.v has the arrays). *)
From Coq Require Import List ZArith Bool.
Import ListNotations.
Local Open Scope Z_scope.
Notation length := List.length.
Local Notation "'do' x <- a ; b" := (match a with Some x => b | None => None end)
  (at level 200, x pattern, a at level 100, b at level 200).

Definition text := list Z.
Definition table := (option text * option text)%type.
(** the file: its handle if it can be opened, its size, the bytes a Read of so many bytes gives *)
Record file := File { f_open : option Z; f_size : Z; f_read : Z -> text }.
(** open handles; the scratch memory in use; the KeyValues objects (number, contents); the next number;
    the numbers of the deleted objects, latest first *)
Record world := World { handles : list Z; scratch : option text; objs : list (nat * table); next : nat; gone : list nat }.

Definition remove_one (h : Z) := fix go (l : list Z) : option (list Z) :=
  match l with [] => None | x :: l => if x =? h then Some l else do l <- go l ; Some (x :: l) end.
Definition set_handles l w := World l (scratch w) (objs w) (next w) (gone w).
Definition set_scratch b w := World (handles w) b (objs w) (next w) (gone w).
Definition set_objs l w := World (handles w) (scratch w) l (next w) (gone w).

(** new KeyValues, deleteThis/delete, contents *)
Definition kv_new (w : world) : world * nat := (World (handles w) (scratch w) ((next w, (None, None)) :: objs w) (S (next w)) (gone w), next w).
Definition kv_get (w : world) (i : nat) : option table := do p <- find (fun p => Nat.eqb (fst p) i) (objs w) ; Some (snd p).
Definition kv_set (w : world) (i : nat) (t : table) : option world :=
  do _ <- kv_get w i ; Some (set_objs (map (fun p => if Nat.eqb (fst p) i then (i, t) else p) (objs w)) w).
Definition kv_delete (w : world) (i : nat) : option world :=
  do _ <- kv_get w i ; Some (World (handles w) (scratch w) (filter (fun p => negb (Nat.eqb (fst p) i)) (objs w)) (next w) (i :: gone w)).

(** the text up to the first NUL; [None]: there is none *)
Fixpoint cstr (b : text) : option text :=
  match b with [] => None | c :: b => if c =? 0 then Some [] else do s <- cstr b ; Some (c :: s) end.
Fixpoint write (b : text) (i : nat) (c : Z) : text :=
  match b, i with [], _ => [] | _ :: b, O => c :: b | x :: b, S i => x :: write b i c end.

Section Kv.
Variable junk : Z -> text.              (* what MemAllocScratch of so many bytes gives *)
Variable parse : text -> option table.  (* LoadFromBuffer: [None]: it answers false *)
Variable INT_MAX : Z.

(** KVLoadFromFile (613-641): fills object [i] *)
Definition KVLoadFromFile (w : world) (i : nat) (f : file) : option (world * bool) :=
  match f_open f with
  | None => Some (w, false)                                              (* 620-622 *)
  | Some h =>
      let w := set_handles (h :: handles w) w in
      let fileSize := f_size f in                                        (* 625 *)
      if INT_MAX <=? fileSize then None                                  (* 626: fileSize + 1 *)
      else if fileSize + 1 <? 0 then None
      else match scratch w with
      | Some _ => None                                                   (* the scratch memory is in use *)
      | None =>
          let b := junk (fileSize + 1) in
          do _ <- remove_one h (handles w) ;                             (* Read: the file must be open *)
          let got := f_read f fileSize in                                (* 630; the answer is not used *)
          if (length b <? length got)%nat then None
          else
            let b := got ++ skipn (length got) b in
            if (fileSize <? 0) || (Z.of_nat (length b) <=? fileSize) then None
            else
              let b := write b (Z.to_nat fileSize) 0 in                  (* 632 *)
              let w := set_scratch (Some b) w in
              do l <- remove_one h (handles w) ;                         (* 634 *)
              let w := set_handles l w in
              do s <- cstr b ;                                           (* 636 *)
              do w <- (match parse s with Some t => kv_set w i t | None => do _ <- kv_get w i ; Some w end) ;
              Some (set_scratch None w, match parse s with Some _ => true | None => false end)
      end
  end.

(** LoadFromFile of the engine: [load] is what it makes of the file *)
Variable load : option table.
Definition LoadFromFile (w : world) (i : nat) : option (world * bool) :=
  match load with Some t => do w <- kv_set w i t ; Some (w, true) | None => do _ <- kv_get w i ; Some (w, false) end.

(** ProcessVDF (157-205; Source 2: 168-208); [orig]: the original engine; the texts put into [path] and [alias] *)
Definition ProcessVDF (s2 orig baseFs : bool) (w : world) (f : file) : option (world * option (text * text)) :=
  if negb baseFs then Some (w, None)
  else
    let '(w, v) := kv_new w in
    do (w, ok) <- (if negb s2 && orig then KVLoadFromFile w v f else LoadFromFile w v) ;
    if negb ok then do w <- kv_delete w v ; Some (w, None)
    else
      do t <- kv_get w v ;
      match fst t with
      | None => do w <- kv_delete w v ; Some (w, None)
      | Some p =>
          do t <- kv_get w v ;
          let a := match snd t with Some a => a | None => [] end in
          do w <- kv_delete w v ;
          Some (w, Some (p, a))
      end.
End Kv.
