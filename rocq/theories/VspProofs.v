(** Proofs about the server plugin side of the loader. *)
From Coq Require Import List ZArith Bool Lia.
From Verif Require Import EngModel VspModel VspSpec.
Import ListNotations.
Local Open Scope nat_scope.
Notation length := List.length.

(** ** Runs *)

Lemma run_app : forall l1 l2 s,
  run s (l1 ++ l2) =
  match run s l1 with
  | Some (o1, s1) => match run s1 l2 with Some (o2, s2) => Some (o1 ++ o2, s2) | None => None end
  | None => None
  end.
Proof.
  induction l1 as [|o l1 IH]; intros l2 s; cbn [run app].
  - destruct (run s l2) as [[o2 s2]|]; reflexivity.
  - destruct (step s o) as [[x s1]|]; [|reflexivity].
    rewrite IH. destruct (run s1 l1) as [[o1 s2]|]; [|reflexivity].
    destruct (run s2 l2) as [[o2 s3]|]; reflexivity.
Qed.

Lemma run_snoc : forall l o s outs s',
  run s (l ++ [o]) = Some (outs, s') ->
  exists o1 x s1, run s l = Some (o1, s1) /\ step s1 o = Some (x, s') /\ outs = o1 ++ [x].
Proof.
  intros l o s outs s' H. rewrite run_app in H.
  destruct (run s l) as [[o1 s1]|] eqn:E1; [|discriminate]. cbn [run] in H.
  destruct (step s1 o) as [[x s2]|] eqn:E2; [|discriminate].
  injection H as <- <-. exists o1, x, s1. auto.
Qed.

Lemma run_length : forall l s outs s', run s l = Some (outs, s') -> length outs = length l.
Proof.
  induction l as [|o l IH]; intros s outs s' H; cbn [run] in H.
  - injection H as <- <-. reflexivity.
  - destruct (step s o) as [[x s1]|] eqn:E; [|discriminate].
    destruct (run s1 l) as [[xs s2]|] eqn:E2; [|discriminate].
    injection H as <- <-. cbn [List.length]. f_equal. eapply IH; eauto.
Qed.

(** ** What one call of Load does *)

Lemma backend_eq_dec : forall b c : backend, {b = c} + {b <> c}.
Proof. decide equality. Defined.

(** the table after one edit of the compiler's table *)
Definition edited (b : backend) : list fn :=
  match b with
  | Episode1 | DarkMessiah => shift vtable0 idx_ClientFullyConnect 8
  | AlienSwarm | Portal2 | Blade | Insurgency | DOI | CSGO | MCV =>
      put vtable0 idx_ClientCommand fClientCommandArgs
  | _ => shift (put vtable0 idx_ClientCommand fClientCommandArgs) idx_ClientFullyConnect 8
  end.

Lemma edited_serves : forall b, b <> UNKNOWN -> serves b (edited b).
Proof.
  intros b NU l L i f H. destruct L as [mid command M C].
  unfold has_fully_connect, plain_command in M, C. cbn [In] in M, C.
  destruct b; try congruence;
    destruct M as [[M1 ->]|[M1 ->]];
    try (exfalso; intuition congruence);
    destruct C as [[C1 ->]|[C1 ->]];
    try (exfalso; intuition congruence);
    do 19 (destruct i as [|i]; [cbv in H; first [discriminate H|injection H as <-; reflexivity]|]);
    cbv in H; destruct i; discriminate H.
Qed.

Lemma allow_length : forall w i n, length (allow w i n) = length w.
Proof.
  induction w as [|x w IH]; intros i n; [destruct i, n; reflexivity|].
  destruct i as [|i]; [destruct n as [|n]|]; cbn [allow List.length]; rewrite ?IH; reflexivity.
Qed.

Lemma allow_skipn : forall w i n, skipn i (allow w i n) = allow (skipn i w) 0 n.
Proof.
  induction w as [|x w IH]; intros i n; [destruct i, n; reflexivity|].
  destruct i as [|i]; [reflexivity|]. cbn [allow skipn]. apply IH.
Qed.

Lemma allow_firstn : forall w n, forallb (fun b => b) (firstn n (allow w 0 n)) = true.
Proof.
  induction w as [|x w IH]; intros n; [destruct n; reflexivity|].
  destruct n as [|n]; [reflexivity|]. cbn [allow firstn forallb]. apply IH.
Qed.

Lemma may_allow : forall w i n, i + n <= length w -> may (allow w i n) i n = true.
Proof.
  intros w i n H. unfold may. rewrite allow_length.
  apply andb_true_intro. split; [apply Nat.leb_le; exact H|].
  rewrite allow_skipn. apply allow_firstn.
Qed.

Lemma put_length : forall t i f, i < length t -> length (put t i f) = length t.
Proof.
  intros t i f H. unfold put. rewrite app_length, firstn_length. cbn [List.length].
  rewrite skipn_length. lia.
Qed.

Lemma shift_length : forall t i n, S i + n <= length t -> length (shift t i n) = length t.
Proof.
  intros t i n H. unfold shift. rewrite !app_length, !firstn_length, !skipn_length. lia.
Qed.

(** the two edits together: they never fail on a table of 19 slots, and touch nothing else *)
Definition sized (s : st) : Prop := length (vt s) = 19 /\ length (wr s) = 19.

Definition same_but_table (s t : st) : Prop :=
  allowed t = allowed s /\ ver t = ver s /\ bridge t = bridge s /\ gamedll t = gamedll s /\
  mmb t = mmb s /\ lib t = lib s /\ opened t = opened s /\ next t = next s.

Lemma patch_command_spec : forall s, sized s ->
  exists t, patch_command s = Some t /\ same_but_table s t /\ sized t.
Proof.
  intros s [S1 S2]. unfold patch_command.
  assert (M : may (allow (wr s) idx_ClientCommand 1) idx_ClientCommand 1 = true)
    by (apply may_allow; rewrite S2; unfold idx_ClientCommand; lia).
  rewrite M.
  assert (SZ : sized (set_table s (put (vt s) idx_ClientCommand fClientCommandArgs)
                        (allow (wr s) idx_ClientCommand 1))).
  { split; cbn [vt wr set_table].
    - rewrite put_length; rewrite S1; [reflexivity|unfold idx_ClientCommand; lia].
    - rewrite allow_length. exact S2. }
  destruct (mmb s); eexists; (split; [reflexivity|]);
    (split; [repeat split|first [exact SZ|split; assumption]]).
Qed.

Lemma patch_shift_spec : forall s, sized s ->
  exists t, patch_shift s = Some t /\ same_but_table s t /\ sized t.
Proof.
  intros s [S1 S2]. unfold patch_shift.
  assert (M : may (allow (wr s) idx_ClientFullyConnect 8) idx_ClientFullyConnect 8 = true)
    by (apply may_allow; rewrite S2; unfold idx_ClientFullyConnect; lia).
  rewrite M.
  assert (L : (S idx_ClientFullyConnect + 8 <=? length (vt s)) = true)
    by (apply Nat.leb_le; rewrite S1; unfold idx_ClientFullyConnect; lia).
  rewrite L.
  assert (SZ : sized (set_table s (shift (vt s) idx_ClientFullyConnect 8)
                        (allow (wr s) idx_ClientFullyConnect 8))).
  { split; cbn [vt wr set_table].
    - rewrite shift_length; rewrite S1; [reflexivity|unfold idx_ClientFullyConnect; lia].
    - rewrite allow_length. exact S2. }
  cbn [andb].
  destruct (mmb s); eexists; (split; [reflexivity|]);
    (split; [repeat split|first [exact SZ|split; assumption]]).
Qed.

Lemma patches_vt : forall s t u, vt s = vtable0 -> mmb s <> UNKNOWN ->
  patch_command s = Some t -> patch_shift t = Some u -> vt u = edited (mmb s).
Proof.
  intros s t u V NU H1 H2. unfold patch_command in H1.
  assert (MT : mmb t = mmb s /\ vt t = match mmb s with
            | Episode1 | DarkMessiah => vtable0 | _ => put vtable0 idx_ClientCommand fClientCommandArgs end).
  { destruct (may (allow (wr s) idx_ClientCommand 1) idx_ClientCommand 1);
      destruct (mmb s) eqn:E; try congruence; try discriminate H1;
      injection H1 as <-; cbn [mmb vt set_table]; rewrite ?V; split; auto. }
  destruct MT as [M1 M2]. unfold patch_shift in H2. rewrite M1 in H2.
  destruct (may (allow (wr t) idx_ClientFullyConnect 8) idx_ClientFullyConnect 8 &&
            (S idx_ClientFullyConnect + 8 <=? length (vt t)));
    destruct (mmb s) eqn:E; try congruence; try discriminate H2;
    injection H2 as <-; cbn [vt set_table edited]; rewrite M2; reflexivity.
Qed.

(** [load] by cases *)
Definition detect (s : st) (e : env) : st :=
  let s := set_allowed s false in
  if is_none (gamedll s) then set_mmb s (e_backend e) else s.

Lemma detect_fields : forall s e,
  vt (detect s e) = vt s /\ wr (detect s e) = wr s /\ allowed (detect s e) = false /\
  ver (detect s e) = ver s /\ bridge (detect s e) = bridge s /\ gamedll (detect s e) = gamedll s /\
  lib (detect s e) = lib s /\ opened (detect s e) = opened s /\ next (detect s e) = next s /\
  mmb (detect s e) = match gamedll s with None => e_backend e | Some _ => mmb s end.
Proof.
  intros s e. unfold detect. cbn [gamedll set_allowed].
  destruct (gamedll s) eqn:G; cbn [is_none]; repeat split; auto.
Qed.

Lemma load_cases : forall s e r s', load s e = Some (r, s') ->
  (allowed s = false /\ r = Refused /\ s' = s) \/
  (allowed s = true /\ mmb (detect s e) = UNKNOWN /\ r = NoEngine /\ s' = detect s e) \/
  (allowed s = true /\ mmb (detect s e) <> UNKNOWN /\ r <> Refused /\ r <> NoEngine /\
   exists t u, patch_command (detect s e) = Some t /\ patch_shift t = Some u /\
   (** the core library is loaded here *)
   ((gamedll u = None /\
     ((e_lib e = false /\ r = NoLibrary /\ s' = lib_fail u) \/
      (e_lib e = true /\ e_proc e = false /\ r = NoBridge /\ lib_unload (lib_load u) = Some s') \/
      (e_lib e = true /\ e_proc e = true /\ e_ok e = false /\ r = BridgeRefused /\
       lib_unload (set_bridge (set_bridge (lib_load u) (Some (next u))) None) = Some s') \/
      (e_lib e = true /\ e_proc e = true /\ e_ok e = true /\ r = Loaded (mmb u) (ver u) /\
       s' = set_bridge (lib_load u) (Some (next u))))) \/
    (exists g h, gamedll u = Some g /\ lib u = Some h /\
     ((e_proc e = false /\ r = NoBridge /\ s' = u) \/
      (e_proc e = true /\ e_ok e = false /\ is_open u h = true /\ r = BridgeRefused /\
       s' = set_bridge (set_bridge u (Some h)) None) \/
      (e_proc e = true /\ e_ok e = true /\ is_open u h = true /\ r = Loaded (mmb u) (ver u) /\
       s' = set_bridge u (Some h)))))).
Proof.
  intros s e r s' H. unfold load in H.
  destruct (allowed s) eqn:A; cbn [negb] in H;
    [right|left; injection H as <- <-; auto].
  change (if is_none (gamedll (set_allowed s false))
          then set_mmb (set_allowed s false) (e_backend e) else set_allowed s false)
    with (detect s e) in H.
  destruct (backend_eq_dec (mmb (detect s e)) UNKNOWN) as [U|NU].
  - left. rewrite U in H. injection H as <- <-. auto.
  - right.
    assert (H' : match patch_command (detect s e) with
        | None => None
        | Some s =>
            match patch_shift s with
            | None => None
            | Some s =>
                if is_none (gamedll s) && negb (e_lib e) then Some (NoLibrary, lib_fail s)
                else
                  let s := if is_none (gamedll s) then lib_load s else s in
                  match lib s with
                  | None => None
                  | Some h =>
                      if negb (e_proc e) then
                        match unload_if_vsp s with Some s => Some (NoBridge, s) | None => None end
                      else
                        let s := set_bridge s (Some h) in
                        if negb (calls s h) then None
                        else if negb (e_ok e) then
                          match unload_if_vsp (set_bridge s None) with
                          | Some s => Some (BridgeRefused, s)
                          | None => None
                          end
                        else Some (Loaded (mmb s) (ver s), s)
                  end
            end
        end = Some (r, s')).
    { destruct (mmb (detect s e)); try exact H; congruence. }
    clear H. rename H' into H.
    destruct (patch_command (detect s e)) as [t|] eqn:E1; [|discriminate].
    destruct (patch_shift t) as [u|] eqn:E2; [|discriminate].
    enough (G : r <> Refused /\ r <> NoEngine /\
      ((gamedll u = None /\
     ((e_lib e = false /\ r = NoLibrary /\ s' = lib_fail u) \/
      (e_lib e = true /\ e_proc e = false /\ r = NoBridge /\ lib_unload (lib_load u) = Some s') \/
      (e_lib e = true /\ e_proc e = true /\ e_ok e = false /\ r = BridgeRefused /\
       lib_unload (set_bridge (set_bridge (lib_load u) (Some (next u))) None) = Some s') \/
      (e_lib e = true /\ e_proc e = true /\ e_ok e = true /\ r = Loaded (mmb u) (ver u) /\
       s' = set_bridge (lib_load u) (Some (next u))))) \/
    (exists g h, gamedll u = Some g /\ lib u = Some h /\
     ((e_proc e = false /\ r = NoBridge /\ s' = u) \/
      (e_proc e = true /\ e_ok e = false /\ is_open u h = true /\ r = BridgeRefused /\
       s' = set_bridge (set_bridge u (Some h)) None) \/
      (e_proc e = true /\ e_ok e = true /\ is_open u h = true /\ r = Loaded (mmb u) (ver u) /\
       s' = set_bridge u (Some h)))))).
    { destruct G as (G1 & G2 & G3). repeat (split; [auto|]). exists t, u. auto. }
    destruct (gamedll u) as [g|] eqn:G; cbn [is_none andb] in H; cbv zeta in H.
    + destruct (lib u) as [h|] eqn:L; [|discriminate].
      destruct (e_proc e) eqn:EP; cbn [negb] in H.
      * unfold calls in H. change (is_open (set_bridge u (Some h)) h) with (is_open u h) in H.
        destruct (is_open u h) eqn:IO; cbn [negb] in H; [|discriminate].
        destruct (e_ok e) eqn:EO; cbn [negb] in H.
        -- injection H as <- <-. split; [discriminate|]. split; [discriminate|].
           right. exists g, h. split; [reflexivity|]. split; [reflexivity|]. right; right. auto.
        -- unfold unload_if_vsp in H. cbn [gamedll set_bridge] in H. rewrite G in H. cbn [is_none] in H.
           injection H as <- <-. split; [discriminate|]. split; [discriminate|].
           right. exists g, h. split; [reflexivity|]. split; [reflexivity|]. right; left. auto.
      * unfold unload_if_vsp in H. rewrite G in H. cbn [is_none] in H.
        injection H as <- <-. split; [discriminate|]. split; [discriminate|].
        right. exists g, h. auto 10.
    + destruct (e_lib e) eqn:EL; cbn [negb] in H.
      2:{ injection H as <- <-. split; [discriminate|]. split; [discriminate|]. left. auto 10. }
      cbn [lib lib_load set_lib] in H.
      destruct (e_proc e) eqn:EP; cbn [negb] in H.
      * unfold calls, is_open in H. cbn [opened set_bridge set_lib lib_load existsb] in H.
        rewrite Nat.eqb_refl in H. cbn [orb negb] in H.
        destruct (e_ok e) eqn:EO; cbn [negb] in H.
        -- injection H as <- <-. split; [discriminate|]. split; [discriminate|].
           left. split; [reflexivity|]. right; right; right. auto.
        -- unfold unload_if_vsp in H. cbn [gamedll set_bridge set_lib lib_load] in H. rewrite G in H.
           cbn [is_none] in H.
           match type of H with match ?X with _ => _ end = _ => destruct X as [w|] eqn:LU end; [|discriminate].
           injection H as <- <-. split; [discriminate|]. split; [discriminate|].
           left. split; [reflexivity|]. right; right; left. auto.
      * unfold unload_if_vsp in H. cbn [gamedll set_lib lib_load] in H. rewrite G in H. cbn [is_none] in H.
        match type of H with match ?X with _ => _ end = _ => destruct X as [w|] eqn:LU end; [|discriminate].
        injection H as <- <-. split; [discriminate|]. split; [discriminate|].
        left. split; [reflexivity|]. right; left. auto.
Qed.
