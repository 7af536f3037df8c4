(** The library's own tests of constvals, /repo/test/test-constval.cpp, replayed on the model: every CHECK and every conversion and
    overload the test relies on.  They test the model, not the code; nothing is proved here beyond these cases. *)

From Coq Require Import ZArith Arith Bool List.
From Verif Require Import Base ExpandModel ConstvalModel ToArrayModel.
Import ListNotations.
Local Open Scope Z_scope.

(** Types: 0: int, 1: Color, 2: float (as a structure; not a valid type of template parameters), 3: CustomType, 4: char const*. *)
Definition int_ (z : Z) : value := VNttp 0 z.
Definition ct : value := VOther 3 42.
(** The functor classes: the lambdas made by MAKESHIFT_CONSTVAL(), std::plus<>, ToArrayTransform, ToTupleTransform, and the lookup f
    of the comonad test (value 0: "hi", 1: 42, 2: 3.14f). *)
Definition call (f : nat) (args : list value) : outcome value :=
  match f, args with
  | 0%nat, [] => Ok (int_ 5)
  | 1%nat, [] => Ok (VNttp 1 0)
  | 2%nat, [VNttp 0 a; VNttp 0 b] => Ok (int_ (a + b))
  | 3%nat, [] => Ok (VArray true [int_ 4; int_ 2])
  | 4%nat, [] => Ok (VArray false [VArray true [int_ 4]; VArray true [int_ 2]])
  | 5%nat, [] => Ok (VTuple [VArray true [int_ 3]; VArray true [int_ 1; int_ 4]])
  | 6%nat, [] => Ok (VConst (CTypeId 0))
  | 7%nat, [] => Ok ct
  | 8%nat, [x] => Ok (VArray false [x; x])
  | 9%nat, [x] => Ok (VTuple [x; x])
  | 10%nat, [] => Ok (int_ 2)
  | 11%nat, [VConst (CInt 0 z)] => match z with 0 => Ok (VOther 4 0) | 1 => Ok (int_ 42) | 2 => Ok (VOther 2 314) | _ => IllFormed end
  | 12%nat, [VConst (CFun 11); VConst (CInt 0 2)] => Ok (VOther 2 314)
  | 13%nat, [] => Ok (VConst (CSeq [0; 2]%nat))
  | _, _ => IllFormed
  end.
Definition MAKESHIFT_CONSTVAL (f : nat) : outcome cv := make_constval call (CFun f).

(** expect_constval_normalization(): std::integral_constant<>; test-constval.cpp:34-37, 121-128. *)
Example numbers : MAKESHIFT_CONSTVAL 0 = Ok (CInt 0 5) /\ MAKESHIFT_CONSTVAL 1 = Ok (CInt 1 0).
Proof. split; reflexivity. Qed.
(** 130-132: one argument is not a constval, so the result is a value. *)
Example transform_value : constval_transform call true 2 [VConst (CInt 0 1); int_ 42] = Ok (int_ 43).
Proof. reflexivity. Qed.
(** 134-155: array_constant<>, of arrays, tuple_constant<> of array_constant<>; and back. *)
Example arrays :
  MAKESHIFT_CONSTVAL 3 = Ok (CArr true [int_ 4; int_ 2]) /\ eval call (CArr true [int_ 4; int_ 2]) = Ok (VArray true [int_ 4; int_ 2]) /\
  MAKESHIFT_CONSTVAL 4 = Ok (CArr false [VArray true [int_ 4]; VArray true [int_ 2]]) /\
  MAKESHIFT_CONSTVAL 5 = Ok (CTup [CArr true [int_ 3]; CArr true [int_ 1; int_ 4]]) /\
  eval call (CTup [CArr true [int_ 3]; CArr true [int_ 1; int_ 4]]) = Ok (VTuple [VArray true [int_ 3]; VArray true [int_ 1; int_ 4]]).
Proof. repeat split. Qed.
(** The elements of the array of arrays, c<T, Vs>: 45-49. *)
Example nested_elements : constant_ref call (VArray true [int_ 4]) = Ok (CArr true [int_ 4]).
Proof. reflexivity. Qed.
(** 157-169: types and type sequences.  For the former, the conversion of the constval to its value. *)
Example types :
  (exists c, MAKESHIFT_CONSTVAL 6 = Ok c /\ eval call c = Ok (VConst (CTypeId 0))) /\ MAKESHIFT_CONSTVAL 13 = Ok (CSeq [0; 2]%nat).
Proof. split; [eexists; split; reflexivity|reflexivity]. Qed.
(** 176-193: structures are not normalized, arrays and tuples of them are; get<0>() works. *)
Example custom :
  MAKESHIFT_CONSTVAL 7 = Ok (CConstval (CFun 7)) /\
  constval_transform call true 8 [VConst (CConstval (CFun 7))] = Ok (VConst (CArr false [ct; ct])) /\
  (exists c0, get_constval call 0 (CArr false [ct; ct]) = Ok c0 /\ eval call c0 = Ok ct) /\
  exists c c0, constval_transform call true 9 [VConst (CConstval (CFun 7))] = Ok (VConst (CTup c)) /\
  get_constval call 0 (CTup c) = Ok c0 /\ eval call c0 = Ok ct.
Proof.
  split; [reflexivity|]. split; [reflexivity|]. split; [eexists; split; reflexivity|].
  eexists _, _. repeat split.
Qed.
(** 195-210: references to static members. *)
Example references :
  (exists c, constant_ref call (VOther 3 4) = Ok c /\ eval call c = Ok (VOther 3 4)) /\
  constant_ref call (VArray true [int_ 2; int_ 4]) = Ok (CArr true [int_ 2; int_ 4]).
Proof. split; [eexists; split; reflexivity|reflexivity]. Qed.

(** TEST_CASE "constval as comonad": 213-239. *)
Example comonad :
  exists aC, MAKESHIFT_CONSTVAL 10 = Ok aC /\ eval call aC = Ok (int_ 2) /\
  call 11 [VConst aC] = Ok (VOther 2 314) /\
  exists bC bC2, constval_extend call true 12 [VConst (CFun 11); VConst aC] = Ok (VConst bC) /\ eval call bC = Ok (VOther 2 314) /\
  constval_extend call true 11 [VConst aC] = Ok (VConst bC2) /\ eval call bC2 = Ok (VOther 2 314).
Proof. eexists. split; [reflexivity|]. split; [reflexivity|]. split; [reflexivity|]. eexists _, _. repeat split. Qed.

(** TEST_CASE "constval_range_to_array": 241-266. *)
Fixpoint fibonacci_loop (fuel : nat) (max c0 c1 : Z) : list Z :=
  match fuel with
  | O => []
  | S fuel' => let c2 := c0 + c1 in if c2 >? max then [] else c2 :: fibonacci_loop fuel' max c1 c2
  end.
Definition fibonacci (max : Z) : list Z := [1; 1] ++ fibonacci_loop 20 max 1 1.
Example range_to_array_fibonacci :
  fibonacci 50 = [1; 1; 2; 3; 5; 8; 13; 21; 34] /\
  range_to_array (Some 0) (fun x : Z => Ok x) (fun _ => Ok (mk_rng (fibonacci 50) (Some (List.length (fibonacci 50))))) true true true =
    Ok [1; 1; 2; 3; 5; 8; 13; 21; 34].
Proof. split; vm_compute; reflexivity. Qed.
