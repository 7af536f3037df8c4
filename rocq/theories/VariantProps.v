(** C16, C17, C18, C60: transforming variants. *)

From Coq Require Import ZArith Arith Bool List.
From Verif Require Import Base TypeSeqModel TypeSeqSpec VariantModel VariantSpec VariantProofs.
Import ListNotations.

(** C16.  Exactly one call, with the held alternatives; its result under its type; exceptions pass through; a call
    returning void terminates the program after the call. *)
Theorem C16_variant_transform : forall (T : Type) (eq_dec : forall a b : T, {a = b} + {a <> b}) (V S : Type)
    (fres : list T -> option T) (func : S -> list (T * V) -> S * outcome V) alts R vs args s,
  inhabited_variants alts -> variant_transform_result eq_dec fres alts = Ok R -> holding alts vs args ->
  (forall s' x t, func s args = (s', Ok x) -> fres (map fst args) = Some t ->
     exists i, variant_transform eq_dec fres func alts vs s = (s', Ok (i, x)) /\ nth_error R i = Some t) /\
  (forall s' x, func s args = (s', Ok x) -> fres (map fst args) = None ->
     variant_transform eq_dec fres func alts vs s = (s', Contract)) /\
  (forall s' e, func s args = (s', Throw e) -> variant_transform eq_dec fres func alts vs s = (s', Throw e)).
Proof. exact @variant_transform_call. Qed.
Print Assumptions C16_variant_transform.

(** A valueless variant is reported by std::bad_variant_access without a call. *)
Theorem C16_valueless : forall (T : Type) (eq_dec : forall a b : T, {a = b} + {a <> b}) (V S : Type)
    (fres : list T -> option T) (func : S -> list (T * V) -> S * outcome V) alts R vs s,
  variant_transform_result eq_dec fres alts = Ok R -> Forall2 (fun a v => is_variant a v) alts vs -> In None vs ->
  variant_transform eq_dec fres func alts vs s = (s, Throw BadVariantAccess).
Proof. exact @variant_transform_valueless. Qed.
Print Assumptions C16_valueless.

(** makeshift::visit() calls the functor once with the held alternatives. *)
Theorem C16_visit : forall (T V S Res : Type) (func : S -> list (T * V) -> S * outcome Res) alts vs args s,
  holding alts vs args -> visit func alts vs s = func s args.
Proof. exact @visit_spec. Qed.
Print Assumptions C16_visit.

(** Two variants <0, 1> and <0, 2, 3>; the functor returns the type of the larger argument type, void for equal ones. *)
Definition ex_res (ts : list nat) : option nat :=
  match ts with [a; b] => if Nat.eqb a b then None else Some (Nat.max a b) | _ => None end.
Definition ex_fun (s : nat) (args : list (nat * Z)) : nat * outcome Z := (S s, Ok (fold_right (fun p a => snd p + a) 0 args)%Z).
Example C16_nontrivial :
  variant_transform_result Nat.eq_dec ex_res [[0; 1]; [0; 2; 3]] = Ok [1; 2; 3] /\
  holding [[0; 1]; [0; 2; 3]] [Some (1, 10%Z); Some (2, 20%Z)] [(1, 10%Z); (3, 20%Z)] /\
  variant_transform Nat.eq_dec ex_res ex_fun [[0; 1]; [0; 2; 3]] [Some (1, 10%Z); Some (2, 20%Z)] 0 = (1, Ok (2, 30%Z)) /\
  variant_transform Nat.eq_dec ex_res ex_fun [[0; 1]; [0; 2; 3]] [Some (0, 10%Z); Some (0, 20%Z)] 0 = (1, Contract) /\
  variant_transform Nat.eq_dec ex_res ex_fun [[0; 1]; [0; 2; 3]] [Some (0, 10%Z); None] 0 = (0, Throw BadVariantAccess).
Proof.
  split; [reflexivity|]. split; [|repeat split].
  split; [|split; reflexivity]. repeat constructor; cbn; eexists; split; reflexivity.
Qed.

(** C17.  Every combination of alternatives is enumerated exactly once ... *)
Theorem C17_enumeration : forall (T : Type) (alts : list (list T)), inhabited_variants alts ->
  (number_of_combinations alts <= 2 ^ 63 - 1)%Z ->
  exists cs idxs, combinations alts = Ok cs /\ NoDup idxs /\
    (forall ps, In ps idxs <-> Forall2 (fun i a => i < length a) ps alts) /\
    Forall2 (fun ps ts => selects ps alts ts) idxs cs.
Proof. exact @combinations_ok. Qed.
Print Assumptions C17_enumeration.

(** ... or the program is rejected. *)
Theorem C17_too_many : forall (T : Type) (alts : list (list T)), inhabited_variants alts ->
  (2 ^ 63 - 1 < number_of_combinations alts)%Z -> combinations alts = IllFormed.
Proof. exact @combinations_ill. Qed.
Print Assumptions C17_too_many.

Theorem C17_result_type : forall (T : Type) (eq_dec : forall a b : T, {a = b} + {a <> b}) (fres : list T -> option T) alts R,
  inhabited_variants alts -> variant_transform_result eq_dec fres alts = Ok R ->
  NoDup R /\ forall t, In t R <-> exists ts, combination alts ts /\ fres ts = Some t.
Proof. exact @transform_result_spec. Qed.
Print Assumptions C17_result_type.

Theorem C17_well_formed : forall (T : Type) (eq_dec : forall a b : T, {a = b} + {a <> b}) (fres : list T -> option T) alts,
  inhabited_variants alts ->
  ((exists R, variant_transform_result eq_dec fres alts = Ok R) <->
   (number_of_combinations alts <= 2 ^ 63 - 1)%Z /\ exists ts t, combination alts ts /\ fres ts = Some t) /\
  ((exists R, variant_transform_result eq_dec fres alts = Ok R) \/ variant_transform_result eq_dec fres alts = IllFormed).
Proof. exact @transform_result_wf. Qed.
Print Assumptions C17_well_formed.

Example C17_nontrivial : combinations [[1; 2]; [3; 4; 5]; [6]] =
  Ok [[1; 3; 6]; [2; 3; 6]; [1; 4; 6]; [2; 4; 6]; [1; 5; 6]; [2; 5; 6]] /\
  inhabited_variants [[1; 2]; [3; 4; 5]; [6]] /\ (number_of_combinations [[1; 2]; [3; 4; 5]; [6]] <= 2 ^ 63 - 1)%Z.
Proof. split; [reflexivity|]. split; [repeat constructor; discriminate|vm_compute; discriminate]. Qed.
Example C17_too_many_nontrivial : inhabited_variants (repeat [1; 2] 64) /\ (2 ^ 63 - 1 < number_of_combinations (repeat [1; 2] 64))%Z.
Proof. split; [|vm_compute; reflexivity]. apply Forall_forall. intros x H. apply repeat_spec in H. subst. discriminate. Qed.

(** C18. *)
Theorem C18_variant_transform_many : forall (T : Type) (eq_dec : forall a b : T, {a = b} + {a <> b}) (V S : Type)
    (fres : list T -> option (list T)) (func : S -> list (T * V) -> S * outcome (option (nat * V))) alts R vs args s,
  inhabited_variants alts -> variant_transform_many_result eq_dec fres alts = Ok R -> holding alts vs args ->
  (forall s' j x rts t, func s args = (s', Ok (Some (j, x))) -> fres (map fst args) = Some rts -> nth_error rts j = Some t ->
     exists i, variant_transform_many eq_dec fres func alts vs s = (s', Ok (i, x)) /\ nth_error R i = Some t) /\
  (forall s', func s args = (s', Ok None) -> variant_transform_many eq_dec fres func alts vs s = (s', Throw BadVariantAccess)) /\
  (forall s' e, func s args = (s', Throw e) -> variant_transform_many eq_dec fres func alts vs s = (s', Throw e)).
Proof. exact @variant_transform_many_call. Qed.
Print Assumptions C18_variant_transform_many.

Theorem C18_result_type : forall (T : Type) (eq_dec : forall a b : T, {a = b} + {a <> b}) (fres : list T -> option (list T)) alts R,
  inhabited_variants alts -> variant_transform_many_result eq_dec fres alts = Ok R ->
  NoDup R /\
  (forall ts, combination alts ts -> exists v, fres ts = Some v) /\
  forall t, In t R <-> exists ts v, combination alts ts /\ fres ts = Some v /\ In t v.
Proof. exact @many_result_spec. Qed.
Print Assumptions C18_result_type.

Theorem C18_well_formed : forall (T : Type) (eq_dec : forall a b : T, {a = b} + {a <> b}) (fres : list T -> option (list T)) alts,
  inhabited_variants alts -> (number_of_combinations alts <= 2 ^ 63 - 1)%Z ->
  (forall ts, combination alts ts -> exists v, fres ts = Some v /\ v <> []) ->
  exists R, variant_transform_many_result eq_dec fres alts = Ok R.
Proof. exact @many_result_wf. Qed.
Print Assumptions C18_well_formed.

Theorem C18_valueless : forall (T : Type) (eq_dec : forall a b : T, {a = b} + {a <> b}) (V S : Type)
    (fres : list T -> option (list T)) (func : S -> list (T * V) -> S * outcome (option (nat * V))) alts R vs s,
  variant_transform_many_result eq_dec fres alts = Ok R -> Forall2 (fun a v => is_variant a v) alts vs -> In None vs ->
  variant_transform_many eq_dec fres func alts vs s = (s, Throw BadVariantAccess).
Proof. exact @variant_transform_many_valueless. Qed.
Print Assumptions C18_valueless.

Definition ex_many (ts : list nat) : option (list nat) := Some (7 :: ts).
Definition ex_many_fun (s : nat) (args : list (nat * Z)) : nat * outcome (option (nat * Z)) :=
  (S s, Ok (match args with (_, x) :: _ => Some (1, x) | [] => None end)).
Example C18_nontrivial :
  variant_transform_many_result Nat.eq_dec ex_many [[0; 1]; [0; 2]] = Ok [0; 7; 1; 2] /\
  variant_transform_many Nat.eq_dec ex_many ex_many_fun [[0; 1]; [0; 2]] [Some (1, 10%Z); Some (0, 20%Z)] 0 = (1, Ok (2, 10%Z)).
Proof. split; reflexivity. Qed.

(** C60.  [u] is the value of std::monostate, the only one of that type. *)
Theorem C60_optional_round_trip : forall (T : Type) (eq_dec : forall a b : T, {a = b} + {a <> b}) (V : Type) mono ts,
  NoDup (mono :: ts) -> ts <> [] -> forall (u : V) i x, i < length (mono :: ts) -> (i = 0 -> x = u) ->
  exists o, variant_to_optional eq_dec mono (with_monostate mono ts) (Some (i, x)) = Ok o /\
            optional_to_variant eq_dec mono u ts (option_map Some o) = Ok (i, x).
Proof. exact @round_trip_1. Qed.
Print Assumptions C60_optional_round_trip.

Theorem C60_variant_round_trip : forall (T : Type) (eq_dec : forall a b : T, {a = b} + {a <> b}) (V : Type) mono ts,
  NoDup (mono :: ts) -> ts <> [] -> forall (u : V) (o : option (nat * V)), (forall i x, o = Some (i, x) -> i < length ts) ->
  exists v, optional_to_variant eq_dec mono u ts (option_map Some o) = Ok v /\
            variant_to_optional eq_dec mono (with_monostate mono ts) (Some v) = Ok o.
Proof. exact @round_trip_2. Qed.
Print Assumptions C60_variant_round_trip.

(** The conditions on the alternatives are those under which the code is well-formed. *)
Theorem C60_well_formed : forall (T : Type) (eq_dec : forall a b : T, {a = b} + {a <> b}) (V : Type) mono ts (v : option (nat * V)),
  variant_to_optional eq_dec mono ts v <> IllFormed -> exists r, ts = mono :: r /\ r <> [] /\ NoDup ts.
Proof. exact @to_optional_wf. Qed.
Print Assumptions C60_well_formed.

Theorem C60_monostate_lists : forall (T : Type) (eq_dec : forall a b : T, {a = b} + {a <> b}) mono ts,
  without_monostate eq_dec mono (with_monostate mono ts) = Ok ts.
Proof. exact @without_with. Qed.
Print Assumptions C60_monostate_lists.

Theorem C60_variant_cast : forall (T : Type) (eq_dec : forall a b : T, {a = b} + {a <> b}) (V : Type) (dst src : list T) (v : option (nat * V)),
  (forall t, In t src -> exists p, only_position (eq t) dst p) ->
  match v with
  | None => variant_cast eq_dec dst src v = Throw BadVariantAccess
  | Some (i, x) => forall t, nth_error src i = Some t ->
      exists j, variant_cast eq_dec dst src v = Ok (j, x) /\ nth_error dst j = Some t
  end.
Proof. exact @variant_cast_spec. Qed.
Print Assumptions C60_variant_cast.

Example C60_nontrivial :
  variant_to_optional Nat.eq_dec 0 [0; 4; 5] (Some (2, 9%Z)) = Ok (Some (1, 9%Z)) /\
  optional_to_variant Nat.eq_dec 0 0%Z [4; 5] (Some (Some (1, 9%Z))) = Ok (2, 9%Z) /\
  optional_to_variant Nat.eq_dec 0 0%Z [4; 5] None = Ok (0, 0%Z) /\
  variant_cast Nat.eq_dec [6; 5; 4] [4; 5] (Some (0, 9%Z)) = Ok (2, 9%Z) /\
  (forall t, In t [4; 5] -> exists p, only_position (eq t) [6; 5; 4] p).
Proof.
  repeat split. intros t [<-|[<-|[]]].
  - exists 2. split; [exists 4; auto|]. intros [|[|[|[|j]]]] u H <-; cbn in H; try discriminate; auto.
  - exists 1. split; [exists 5; auto|]. intros [|[|[|[|j]]]] u H <-; cbn in H; try discriminate; auto.
Qed.
