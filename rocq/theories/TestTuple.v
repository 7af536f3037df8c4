(** The library's own tests of the tuple and array algorithms, /repo/test/test-tuple.cpp and /repo/test/test-array.cpp, replayed on
    the model: every CHECK.  They test the model, not the code; nothing is proved here beyond these cases.  Floating-point numbers
    are integers here. *)

From Coq Require Import ZArith Bool List.
From Verif Require Import Base TupleModel.
Import ListNotations.
Local Open Scope Z_scope.

Definition numbers : arg Z := ATuple [2; 3].
(** A functor without state, of one element. *)
Definition pure1 {R : Type} (f : Z -> R) (s : unit) (es : list (element Z)) : unit * outcome R :=
  (s, match es with [Elem x] => Ok (f x) | [Index i] => Ok (f (Z.of_nat i)) | _ => IllFormed end).

(** test-tuple.cpp:18-31: "foreach", "transform"; the latter for both orders of evaluation. *)
Example foreach :
  template_for (R := unit) (-1) (fun sum es => match es with [Elem x] => (sum + x, Ok tt) | _ => (sum, IllFormed) end) [numbers] 0 = (5, Ok tt).
Proof. reflexivity. Qed.
Example transform : Forall (fun order => tuple_transform order (-1) (pure1 (fun x => x * x)) [numbers] tt = (tt, Ok [4; 9])) [[0; 1]%nat; [1; 0]%nat].
Proof. repeat apply Forall_cons; try apply Forall_nil; reflexivity. Qed.
(** "index": 32-44.  The state is result_tuple. *)
Example index :
  template_for (R := unit) (-1)
    (fun res es => match es with
                   | [Elem lhs; IndexConstant i] => (upd res i (lhs + 1 + Z.of_nat i * 100), Ok tt)
                   | _ => (res, IllFormed)
                   end) [ATuple [10; 20; 30]; ATupleIndex] [0; 0; 0] = ([11; 121; 231], Ok tt).
Proof. reflexivity. Qed.
(** "reduce": 45-49. *)
Example reduce : template_reduce 0 (fun (s : unit) a e => (s, match e with Elem x => Ok (a + x) | _ => IllFormed end)) numbers tt = (tt, Ok 5).
Proof. reflexivity. Qed.
(** "all/any/none": 50-64. *)
Example quantifiers :
  template_all_of (pure1 (fun x => x >? 0)) [numbers] tt = (tt, Ok true) /\ template_all_of (pure1 (fun x => x >? 2)) [numbers] tt = (tt, Ok false) /\
  template_any_of (pure1 (fun x => x >? 2)) [numbers] tt = (tt, Ok true) /\ template_any_of (pure1 (fun x => x >? 4)) [numbers] tt = (tt, Ok false) /\
  template_none_of (pure1 (fun x => x >? 2)) [numbers] tt = (tt, Ok false) /\ template_none_of (pure1 (fun x => x >? 4)) [numbers] tt = (tt, Ok true).
Proof. repeat split. Qed.

(** test-array.cpp:18-45. *)
Example array :
  array_transform (-1) (pure1 (fun x => x * x)) [numbers] tt = (tt, Ok [4; 9]) /\
  array_cat [[2; 3]; [6; 8]] = Ok [2; 3; 6; 8] /\
  array_transform 3 (pure1 (fun i => i * 1)) [ARangeIndex] tt = (tt, Ok [0; 1; 2]).
Proof. repeat split. Qed.
