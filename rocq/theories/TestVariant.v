(** The library's own tests of the variant functions, /repo/test/test-variant.cpp, replayed on the model: every CHECK and static
    assertion.  They test the model, not the code; nothing is proved here beyond these cases. *)

From Coq Require Import String Ascii ZArith Arith Bool List.
From Verif Require Import Base TypeSeqModel VariantModel ExpandModel.
Import ListNotations.

(** int, float, char const*: test-variant.cpp:27-29. *)
Definition I := 0. Definition F := 1. Definition S := 2.
Definition V1 := [I; F]. Definition V2 := [S; I]. Definition V3 := [S; F].
(** The result types of VarTransformer, NestedVarTransformer: 31-44. *)
Definition var_result (ts : list nat) : option nat :=
  match ts with [1; 0] => Some S | [1; 2] => Some I | [0; 0] => Some I | [0; 2] => Some I | _ => None end.
Definition nested_result (ts : list nat) : option (list nat) :=
  match ts with [1; 0] => Some V2 | [1; 2] => Some V3 | [0; 0] => Some V1 | [0; 2] => Some V1 | _ => None end.
Local Open Scope Z_scope.
(** The values are numbers; 7 stands for "hi", 9 for "there". *)
Definition var_call (s : unit) (args : list (nat * Z)) : unit * outcome Z :=
  (s, match args with [(1%nat, _); (0%nat, _)] => Ok 7 | [(_, x); _] => Ok x | _ => IllFormed end).
Definition nested_call (s : unit) (args : list (nat * Z)) : unit * outcome (option (nat * Z)) :=
  (s, match args with
      | [(1%nat, _); (0%nat, _)] => Ok (Some (0%nat, 7))       (* V2, "hi" *)
      | [(1%nat, x); (2%nat, _)] => Ok (Some (1%nat, x))       (* V3, f *)
      | [(0%nat, x); _] => Ok (Some (0%nat, x))                (* V1, i *)
      | _ => IllFormed
      end).
(** TEST_CASE "variant_transform()": 46-57; the variants hold 42 and "there". *)
Example transform_types :
  variant_transform_result Nat.eq_dec var_result [V1; V2] = Ok [I; S] /\
  variant_transform_many_result Nat.eq_dec nested_result [V1; V2] = Ok [F; S; I].
Proof. split; vm_compute; reflexivity. Qed.
Example transform_values :
  variant_transform Nat.eq_dec var_result var_call [V1; V2] [Some (0%nat, 42); Some (0%nat, 9)] tt = (tt, Ok (0%nat, 42)) /\
  variant_transform_many Nat.eq_dec nested_result nested_call [V1; V2] [Some (0%nat, 42); Some (0%nat, 9)] tt = (tt, Ok (2%nat, 42)).
Proof. split; vm_compute; reflexivity. Qed.

(** TEST_CASE "expand()": 61-83.  Strings are compared as std::string_view and std::string do. *)
Fixpoint str_lt (a b : str) : bool :=
  match a, b with
  | _, [] => false
  | [], _ => true
  | x :: a', y :: b' => (N_of_ascii x <? N_of_ascii y)%N || ((N_of_ascii x =? N_of_ascii y)%N && str_lt a' b')
  end.
Definition str_eqb (a b : str) : bool := if list_eq_dec ascii_dec a b then true else false.
Example expand_strings : Forall (fun p => expand_other true str_lt str_lt str_lt str_eqb (fst p) [lit "foo"; lit "bar"] = snd p)
  [(lit "foo", Ok 0%nat); (lit "bar", Ok 1%nat); (lit "baz", Throw UnsupportedRuntimeValue)].
Proof. repeat apply Forall_cons; try apply Forall_nil; vm_compute; reflexivity. Qed.
