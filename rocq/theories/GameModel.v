(** Model of the detection of the game libraries.
    Source: /repo/loader/gamedll.cpp 44-83 (static data, names) and 85-217
    (mm_DetectGameInformation), Linux x86-64 build.
    Simplified: PLATFORM_MAX_PATH is a parameter; the file system does not change during
    the call; opening a file gives its bytes or fails; the answers of mm_GetFileOfAddress,
    mm_ResolvePath, getcwd and realpath are parameters; mm_GetGameName is in EngModel;
    high bytes have no lower case ("C" locale). *)
From Coq Require Import List Bool Arith Ascii String.
From Verif Require Import StrModel EngModel PlFileModel.
Import ListNotations.
Local Open Scope char_scope.
Local Open Scope list_scope.
Local Open Scope nat_scope.
Local Notation "'do' x <- a ; b" := (match a with Some x => b | None => None end)
  (at level 200, x pattern, a at level 100, b at level 200).
Local Notation length := List.length.
Local Notation L_ := list_ascii_of_string.

(** what the system answers *)
Record env := mkenv {
  e_max : nat;                       (* PLATFORM_MAX_PATH *)
  e_self : option str;               (* mm_GetFileOfAddress of the loader *)
  e_dir : option str;                (* mm_ResolvePath of the game name *)
  e_cwd : option str;                (* getcwd *)
  e_real : str -> option str;        (* realpath *)
  e_file : str -> option str         (* fopen and the contents *)
}.

(** line 46: MAX_GAMEDLL_PATHS *)
Definition MAX_PATHS : nat := 10.

Definition GAMEINFO : str := L_ "|gameinfo_path|".

(** strncmp(val, "|gameinfo_path|", n) == 0: what follows *)
Fixpoint after_prefix (p s : str) : option str :=
  match p, s with
  | [], _ => Some s
  | a :: p', b :: s' => if Ascii.eqb a b then after_prefix p' s' else None
  | _ :: _, [] => None
  end.

(** 147-162: [lptr] and [ptr] *)
Definition base_of (e : env) (dir val : str) : str * str :=
  match after_prefix GAMEINFO val with
  | Some p => (dir, match p with c :: p' => if Ascii.eqb c "." then p' else p | [] => [] end)
  | None => (match e_cwd e with Some d => d | None => [] end, val)
  end.

(** 164-172: the text of the path *)
Definition server_path (src2 : bool) (gamebin : bool) (lptr ptr : str) : str :=
  let rel := if src2 then L_ "../../" else [] in
  let osdir := if src2 then L_ "/linuxsteamrt64/" else L_ "/linux64" in
  let bin := if src2 then L_ "libserver.so" else L_ "server.so" in
  if gamebin then lptr ++ ["/"] ++ rel ++ ptr ++ osdir ++ ["/"] ++ bin
  else match ptr with
       | [] => lptr ++ ["/"] ++ rel ++ L_ "bin" ++ osdir ++ ["/"] ++ bin
       | _ => lptr ++ ["/"] ++ rel ++ ptr ++ L_ "/bin" ++ osdir ++ ["/"] ++ bin
       end.

(** 184-195: is one of the paths the same? *)
Fixpoint known (e : env) (paths : list str) (t : str) : option bool :=
  match paths with
  | [] => Some false
  | p :: ps => do r <- mm_PathCmp (e_real e) p t ; if r then Some true else known e ps t
  end.

(** the arrays of the loop *)
Record bufs := mkbufs { b_line : buf; b_key : buf; b_val : buf; b_tmp : buf }.

(** 174-206: the candidate in temp_path *)
Definition add_path (e : env) (self : str) (t : str) (paths : list str) : option (list str) :=
  do mine <- mm_PathCmp (e_real e) self t ;
  if mine then Some paths
  else match e_file e t with
       | None => Some paths
       | Some _ =>
           do k <- known e paths t ;
           if k then Some paths
           else if length paths <? MAX_PATHS then
             do (b, _) <- FormatArgs (repeat NUL (e_max e)) (e_max e) (Formatted t) ;
             do p <- cstr b ;
             Some (paths ++ [p])
           else None
       end.

(** 131-207: one iteration, on the array which fgets has filled.  Result: the arrays,
    [search] and the paths. *)
Definition game_line (e : env) (src2 : bool) (self dir : str) (b : bufs) (search : bool) (paths : list str)
  : option (bufs * bool * list str) :=
  do l <- mm_TrimComments (b_line b) ;
  do l <- mm_TrimLeft l ;
  do l <- mm_TrimRight l ;
  do s <- cstr l ;
  let search := if stricmp_eq s (L_ "SearchPaths") then true else search in
  if negb search then Some (mkbufs l (b_key b) (b_val b) (b_tmp b), search, paths)
  else
    do (kb, vb) <- mm_KeySplit s (b_key b) (length (b_key b) - 1) (b_val b) (length (b_val b) - 1) ;
    do key <- cstr kb ;
    if negb (stricmp_eq key (L_ "Game")) && negb (stricmp_eq key (L_ "GameBin"))
    then Some (mkbufs l kb vb (b_tmp b), search, paths)
    else
      do val <- cstr vb ;
      let (lptr, ptr) := base_of e dir val in
      do (tb, _) <- mm_PathFormat (b_tmp b) (e_max e)
                      (Formatted (server_path src2 (stricmp_eq key (L_ "GameBin")) lptr ptr)) ;
      do t <- cstr tb ;
      do paths <- add_path e self t paths ;
      Some (mkbufs l kb vb tb, search, paths).

(** 129-208: the loop over the contents *)
Fixpoint game_loop (fuel : nat) (e : env) (src2 : bool) (self dir : str) (b : bufs) (search : bool)
  (paths : list str) (s : str) : option (list str) :=
  match s with
  | [] => Some paths
  | _ :: _ =>
      match fuel with
      | O => None
      | S fuel' =>
          let (p, r) := take_line (length (b_line b) - 1) s in
          do l <- store_str (b_line b) p ;
          do (b, search, paths') <- game_line e src2 self dir (mkbufs l (b_key b) (b_val b) (b_tmp b)) search paths ;
          if (length paths' =? MAX_PATHS) && negb (length paths' =? length paths) then Some paths'    (* 205: break *)
          else game_loop fuel' e src2 self dir b search paths' r
      end
  end.

(** 44-49: game_info_detected (0, -1, 1) and gamedll_paths *)
Record gst := mkg { detected : option bool; gpaths : list str }.

(** mm_DetectGameInformation; [b]: the arrays as they are on the stack *)
Definition mm_DetectGameInformation (e : env) (b : bufs) (g : gst) : option (gst * bool) :=
  match detected g with
  | Some r => Some (g, r)
  | None =>
      let fail := Some (mkg (Some false) (gpaths g), false) in
      match e_self e, e_dir e with
      | Some self, Some dir =>
          do (gb, _) <- mm_PathFormat (b_tmp b) (e_max e) (Formatted (dir ++ L_ "/gameinfo.txt")) ;
          do gp <- cstr gb ;
          let go src2 contents :=
            do ps <- game_loop (length contents) e src2 self dir b false (gpaths g) contents ;
            Some (mkg (Some true) ps, negb (length ps =? 0)) in
          match e_file e gp with
          | Some contents => go false contents
          | None =>
              do (gb, _) <- mm_PathFormat gb (e_max e) (Formatted (dir ++ L_ "/gameinfo.gi")) ;
              do gp <- cstr gb ;
              match e_file e gp with
              | Some contents => go true contents
              | None => fail
              end
          end
      | _, _ => fail
      end
  end.
