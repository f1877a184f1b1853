(** What the list of user messages should be. *)
From Coq Require Import List ZArith Bool String.
From Verif Require Import UmsgModel.
Import ListNotations.
Local Open Scope Z_scope.

(** The number of a message is its position: [i] is the least number with that name. *)
Definition numbered (l : list umsg) (name : string) (i : Z) : Prop :=
  0 <= i /\ (exists u, nth_error l (Z.to_nat i) = Some u /\ u_name u = name) /\
  forall j u, 0 <= j < i -> nth_error l (Z.to_nat j) = Some u -> u_name u <> name.

(** a jump with a distance of 32 bits can get from behind [target] to [detour] *)
Definition near (w target detour : Z) : Prop :=
  exists d, - 2 ^ 31 <= d < 2 ^ 31 /\ (target + 5 + d) mod 2 ^ w = detour.
