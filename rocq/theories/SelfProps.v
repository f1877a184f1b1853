(** C83: Metamod asks the engine to load Metamod. *)
From Coq Require Import List Bool Arith Ascii String Lia.
From Verif Require Import Base StrModel RelModel RelSpec RelProofs RelProps SelfModel SelfSpec.
Import ListNotations.
Local Open Scope char_scope.
Local Open Scope nat_scope.
Local Open Scope list_scope.
Notation length := List.length.
Notation concat := List.concat.

(** The directory of the engine's file is what is before the last separator. *)
Lemma cut_rev_spec name : forall c r, is_any_sep c = true -> Forall (fun x => is_any_sep x = false) name ->
  cut_rev (name ++ c :: r) = Some r.
Proof.
  induction name as [|x n IH]; cbn [app cut_rev]; intros c r C F; [rewrite C; reflexivity|].
  inversion F as [|? ? X F']; subst. rewrite X. exact (IH c r C F').
Qed.

Lemma any_sep_false x : x <> "/" -> x <> "\" -> is_any_sep x = false.
Proof. intros A B. unfold is_any_sep. apply Ascii.eqb_neq in A, B. rewrite A, B. reflexivity. Qed.

Theorem C83_directory : forall file dir, directory_of file dir -> chop_file file = dir.
Proof.
  intros file dir (c & name & -> & C & N1 & N2). unfold chop_file.
  rewrite rev_app_distr. cbn [rev]. rewrite <- app_assoc. cbn [app].
  rewrite cut_rev_spec; [apply rev_involutive| |].
  - destruct C as [->| ->]; reflexivity.
  - apply Forall_forall. intros x X. apply in_rev in X. apply any_sep_false; intros ->; contradiction.
Qed.
Print Assumptions C83_directory.

(** What the relative path is made of, and how long it can be. *)
Lemma common_root_suffix to : forall from root a b, common_root to from root = Some (a, b) ->
  (exists x y, to = x ++ a /\ from = y ++ b) \/ root = Some (a, b).
Proof.
  induction to as [|c to IH]; intros from root a b E; [right; exact E|].
  destruct from as [|d from]; [right; exact E|]. cbn [common_root] in E.
  destruct (is_sepb c && is_sepb d).
  - destruct (IH _ _ _ _ E) as [(x & y & X & Y)|R].
    + left. exists (c :: x), (d :: y). split; cbn; congruence.
    + injection R as <- <-. left. exists [], []. split; reflexivity.
  - destruct (negb (c =? d)%char); [right; exact E|].
    destruct (IH _ _ _ _ E) as [(x & y & X & Y)|R]; [|right; exact R].
    left. exists (c :: x), (d :: y). split; cbn; congruence.
Qed.

Lemma count_levels_len s : count_levels s <= length s.
Proof.
  induction s as [|c s IH]; cbn [count_levels length]; [lia|]. destruct (is_sepb c); [|lia]. destruct s; [lia|]. lia.
Qed.

Lemma ups_len n : length (concat (repeat ["."; "."; "/"] n)) = 3 * n.
Proof. induction n as [|n IH]; cbn [repeat concat app length]; [reflexivity|]. rewrite IH. lia. Qed.

Lemma ups_all (P : ascii -> Prop) n : P "." -> P "/" -> Forall P (concat (repeat ["."; "."; "/"] n)).
Proof.
  intros D S. induction n as [|n IH]; cbn [repeat concat app]; [constructor|].
  constructor; [exact D|]. constructor; [exact D|]. constructor; [exact S|exact IH].
Qed.

Lemma bad_relatize_made maxlen p1 p2 out (P : ascii -> Prop) : bad_relatize maxlen p1 p2 = Some out -> P "." -> P "/" -> Forall P p2 ->
  Forall P out /\ length out <= 3 * length p1 + length p2.
Proof.
  intros E D S F. unfold bad_relatize in E. destruct (negb (isabsolute p1) || negb (isabsolute p2)); [discriminate|].
  destruct (common_root p1 p2 None) as [(a, b)|] eqn:CR; [|discriminate].
  destruct (common_root_suffix _ _ _ _ _ CR) as [(x & y & X & Y)|R]; [|discriminate].
  destruct (write_ups _ [] maxlen) as [text|] eqn:W; [|discriminate].
  destruct (length (tl b) <? maxlen - length text); [|discriminate]. injection E as <-.
  apply write_ups_spec in W. cbn [app] in W.
  assert (LV : match tl a with [] => 0 | _ :: _ => count_levels a end <= length p1).
  { rewrite X, app_length. pose proof (count_levels_len a). destruct (tl a); lia. }
  split.
  - apply Forall_app. split; [rewrite W; apply ups_all; assumption|].
    rewrite Y in F. apply Forall_app in F as (_ & F). destruct b; [constructor|]. inversion F; assumption.
  - rewrite W, app_length, ups_len. assert (length (tl b) <= length p2) by (rewrite Y, app_length; destruct b; cbn; lia). lia.
Qed.

Lemma fields_all (P : ascii -> Prop) s : Forall P s -> Forall (Forall P) (fields s).
Proof.
  induction s as [|c s IH]; cbn [fields]; intros F; [repeat constructor|].
  inversion F as [|? ? C F']; subst. specialize (IH F'). destruct (ascii_dec c "/"); [constructor; [constructor|exact IH]|].
  destruct (fields s) as [|f fs]; [repeat constructor; exact C|]. inversion IH; subst. constructor; [constructor; assumption|assumption].
Qed.

Lemma join_all (P : ascii -> Prop) l : P "/" -> Forall (Forall P) l -> Forall P (join_parts l).
Proof.
  intros S. induction l as [|x l IH]; intros F; [constructor|]. inversion F as [|? ? X F']; subst.
  destruct l as [|y l]; cbn [join_parts]; [exact X|]. apply Forall_app. split; [exact X|].
  apply Forall_app. split; [repeat constructor; exact S|]. exact (IH F').
Qed.

Lemma relatize_made ex maxlen p1 p2 out (P : ascii -> Prop) : absolute p1 -> absolute p2 -> relatize ex maxlen p1 p2 = Some (Some out) ->
  P "." -> P "/" -> Forall P p2 -> Forall P out /\ length out <= 3 * length p1 + length p2 + 5.
Proof.
  intros A1 A2 E D S F. unfold relatize in E.
  assert (R2 : relatize2 maxlen p1 p2 = Some (Some out) -> Forall P out /\ length out <= 3 * length p1 + length p2 + 5).
  { intros E2. destruct (relatize2_eq maxlen p1 p2 A1 A2) as (r1 & r2 & SK & Q). rewrite Q in E2. injection E2 as <-.
    apply skip_same_spec in SK as (c & C1 & C2).
    assert (NP : Forall P (new_path r1 r2 p2) /\ length (new_path r1 r2 p2) <= 3 * length p1 + length p2 + 5).
    { unfold new_path. rewrite flat_ups. split.
      - apply Forall_app. split; [apply ups_all; assumption|]. apply Forall_app. split.
        + apply join_all; [exact S|]. pose proof (fields_all P p2 F) as FF.
          assert (FN : Forall (Forall P) (names p2)).
          { unfold names. apply Forall_forall. intros x X. apply filter_In in X as (X & _). rewrite Forall_forall in FF. exact (FF x X). }
          rewrite C2 in FN. apply Forall_app in FN as (_ & FN). exact FN.
        + destruct (ends_sep p2); repeat constructor. exact S.
      - pose proof (total_fields p1) as T1. pose proof (total_fields p2) as T2.
        pose proof (total_filter nonempty (fields p1)) as T3. pose proof (total_filter nonempty (fields p2)) as T4.
        change (filter nonempty (fields p1)) with (names p1) in T3. change (filter nonempty (fields p2)) with (names p2) in T4.
        rewrite C1, total_app in T3. rewrite C2, total_app in T4. pose proof (join_len r2). pose proof (names_len r1).
        rewrite !app_length, ups_len. assert (length (if ends_sep p2 then [SEP] else []) <= 1) by (destruct (ends_sep p2); cbn; lia). lia. }
    destruct NP as (NP & NL). split.
    - apply Forall_forall. intros x X. rewrite Forall_forall in NP. apply NP. rewrite <- (firstn_skipn (maxlen - 1)). apply in_app_iff. now left.
    - rewrite firstn_length. lia. }
  destruct (bad_relatize maxlen p1 p2) as [text|] eqn:B; [|exact (R2 E)].
  destruct (ex text); [|exact (R2 E)]. injection E as <-. destruct (bad_relatize_made _ _ _ _ P B D S F). split; [assumption|lia].
Qed.

(** If the engine's file and its directory are found, and Metamod's own path has no quote
    and no line end and fits, the command is one line for one file, and from the engine's
    directory that file is Metamod's own. *)
Theorem C83_loads_itself : forall path_size file dir abspath ex p1 mm,
  directory_of file dir -> abspath dir = Some p1 -> normal p1 -> absolute mm ->
  ~ In (ascii_of_nat 34) mm -> ~ In (ascii_of_nat 10) mm ->
  3 * length p1 + length mm + 21 <= path_size * 2 ->
  exists cmd arg, initialize_vsp false path_size (Some file) abspath ex mm = Some (Some cmd) /\
    one_argument (list_ascii_of_string "plugin_load") arg cmd /\
    denote (p1 ++ "/" :: arg) = denote mm.
Proof.
  intros path_size file dir abspath ex p1 mm DIR AB N1 A2 Q NL SZ. unfold initialize_vsp.
  rewrite (C83_directory file dir DIR), AB.
  destruct (C37_relatize ex (path_size * 2) p1 mm N1 A2 ltac:(lia)) as (out & E & DN).
  rewrite E. exists (load_command path_size out), out. split; [reflexivity|]. split; [|exact DN].
  set (P := fun c => c <> ascii_of_nat 34 /\ c <> ascii_of_nat 10).
  assert (F : Forall P mm). { apply Forall_forall. intros x X. split; intros ->; contradiction. }
  destruct (relatize_made ex (path_size * 2) p1 mm out P (normal_absolute _ N1) A2 E) as (FO & LO);
    [split; discriminate|split; discriminate|exact F|].
  split; [|split].
  - unfold load_command. rewrite firstn_all2; [reflexivity|]. rewrite app_length. cbn [List.length]. rewrite app_length. cbn. lia.
  - intros X. rewrite Forall_forall in FO. destruct (FO _ X) as (Y & _). apply Y. reflexivity.
  - intros X. rewrite Forall_forall in FO. destruct (FO _ X) as (_ & Y). apply Y. reflexivity.
Qed.
Print Assumptions C83_loads_itself.

Definition s_ (x : string) : str := list_ascii_of_string x.
Definition ex_mm : str := s_ "/srv/css/cstrike/addons/metamod/bin/server.so".
Definition ex_abspath (s : str) : option str := if str_eqb s (s_ "/srv/css/./bin") then Some (s_ "/srv/css/bin") else None.
Example C83_example : directory_of (s_ "/srv/css/./bin/engine_srv.so") (s_ "/srv/css/./bin") /\ normal (s_ "/srv/css/bin") /\
  initialize_vsp false 100 (Some (s_ "/srv/css/./bin/engine_srv.so")) ex_abspath (fun _ => true) ex_mm =
    Some (Some (s_ "plugin_load " ++ QUOTE :: s_ "../cstrike/addons/metamod/bin/server.so" ++ [QUOTE; NEWLINE])).
Proof.
  split; [|split].
  - exists "/", (s_ "engine_srv.so"). split; [reflexivity|]. split; [now left|].
    split; intros H; cbn in H; repeat destruct H as [H|H]; discriminate || contradiction.
  - exists [s_ "srv"; s_ "css"], (s_ "bin"). split; [vm_compute; reflexivity|].
    split; [repeat constructor; discriminate|left; repeat split; discriminate].
  - vm_compute. reflexivity.
Qed.

(** Nothing is sent twice: with the plugin already there no command is given. *)
Theorem C83_bridged : forall path_size file abspath ex mm, initialize_vsp true path_size file abspath ex mm = Some None.
Proof. reflexivity. Qed.
Print Assumptions C83_bridged.

(** The case for which the code prepares the empty path, that the engine's directory cannot
    be made absolute, never works: the first part of a path without parts is read. *)
Theorem C83_no_directory_refuted : forall path_size file abspath ex mm, abspath (chop_file file) = None ->
  initialize_vsp false path_size (Some file) abspath ex mm = None.
Proof.
  intros path_size file abspath ex mm A. unfold initialize_vsp. rewrite A. unfold relatize, bad_relatize.
  cbn [isabsolute negb orb]. unfold relatize2. cbn [split_path]. reflexivity.
Qed.
Print Assumptions C83_no_directory_refuted.
Example C83_no_directory_example : ex_abspath (chop_file (s_ "engine_srv.so")) = None.
Proof. reflexivity. Qed.

(** A quote in the path of Metamod ends the argument there. *)
Theorem C83_quote_refuted : exists path_size file abspath ex mm cmd, absolute mm /\
  initialize_vsp false path_size (Some file) abspath ex mm = Some (Some cmd) /\
  firstn 17 cmd = s_ "plugin_load " ++ QUOTE :: s_ "c\d" ++ [QUOTE].
Proof.
  exists 100, (s_ "/a/e.so"), (fun _ => Some (s_ "/a")), (fun _ => false), (s_ "/a/c\d" ++ QUOTE :: s_ "e/server.so"). eexists.
  split; [eexists; reflexivity|]. split; vm_compute; reflexivity.
Qed.
Print Assumptions C83_quote_refuted.

(** A relative path can be longer than both paths, so long that the command is cut. *)
Theorem C83_cut_refuted : exists path_size p1 mm cmd, normal p1 /\ normal mm /\ length p1 < path_size /\ length mm < path_size /\
  initialize_vsp false path_size (Some (p1 ++ s_ "/e.so")) (fun _ => Some p1) (fun _ => false) mm = Some (Some cmd) /\
  ~ In NEWLINE cmd.
Proof.
  exists 24, (s_ "/a/a/a/a/a/a/a/a/a/a"), (s_ "/b/b/addons/server.so"). eexists.
  split; [|split; [|split; [vm_compute; lia|split; [vm_compute; lia|split; [vm_compute; reflexivity|]]]]].
  - exists (repeat (s_ "a") 9), (s_ "a"). split; [vm_compute; reflexivity|]. split; [repeat constructor; discriminate|left; repeat split; discriminate].
  - exists [s_ "b"; s_ "b"; s_ "addons"], (s_ "server.so"). split; [vm_compute; reflexivity|].
    split; [repeat constructor; discriminate|left; repeat split; discriminate].
  - intros H. vm_compute in H. repeat destruct H as [H|H]; discriminate || contradiction.
Qed.
Print Assumptions C83_cut_refuted.
