(** Model of the queries of flags: /repo/include/makeshift/experimental/enum.hpp:27-134,
    /repo/include/makeshift/experimental/detail/enum.hpp:27-32.

    A value of a bitmask type is the value of its underlying integral type; the bitmask operators (gsl-lite's
    gsl_DEFINE_ENUM_BITMASK_OPERATORS()) are those of the underlying type, in two's complement.  is_bitmask_v<> is
    assumed to hold. *)

From Coq Require Import ZArith Bool List.
From Verif Require Import Base ExpandModel.
Local Open Scope Z_scope.

(** is_flag_power_of_2(): experimental/detail/enum.hpp:27-32; 0 and 1 are of type int. *)
Definition is_flag_power_of_2 (t : ity) (value : Z) : outcome bool :=
  if int_lt int32 t 0 value then
    let c := common_type t int32 in
    do d <- int_arith c (cast c value - cast c 1);
    Ok (Z.eqb (Z.land (cast c value) (cast c d)) 0)
  else Ok false.

(** Bitmask operator &.  Used in experimental/enum.hpp:35, 50, 65, 80, 94, 107, 120, 133. *)
Definition bit_and (t : ity) (a b : Z) : Z := cast t (Z.land (cast (promote t) a) (cast (promote t) b)).

(** has_flag<Needle>(haystack): experimental/enum.hpp:27-36 (static_assert), has_flag(haystack, needle): 88-95 (gsl_ExpectsAudit(),
    which is checked iff [audit]). *)
Definition has_flag_c (t : ity) (needle haystack : Z) : outcome bool :=
  do ok <- is_flag_power_of_2 t needle;
  if ok then Ok (Z.eqb (bit_and t haystack needle) needle) else IllFormed.
(** experimental/enum.hpp:88-95. *)
Definition has_flag (audit : bool) (t : ity) (haystack needle : Z) : outcome bool :=
  if audit then do ok <- is_flag_power_of_2 t needle; do _ <- expects ok; Ok (Z.eqb (bit_and t haystack needle) needle)
  else Ok (Z.eqb (bit_and t haystack needle) needle).
(** has_any_flag_of(): 43-51, 102-108; has_no_flag_of(): 58-66, 115-121; has_all_flags_of(): 73-81, 128-134 (both forms).
    experimental/enum.hpp:43-51, 102-108. *)
Definition has_any_flag_of (t : ity) (haystack needles : Z) : bool := negb (Z.eqb (bit_and t haystack needles) 0).
(** experimental/enum.hpp:58-66, 115-121. *)
Definition has_no_flag_of (t : ity) (haystack needles : Z) : bool := Z.eqb (bit_and t haystack needles) 0.
(** experimental/enum.hpp:73-81, 128-134. *)
Definition has_all_flags_of (t : ity) (haystack needles : Z) : bool := Z.eqb (bit_and t haystack needles) needles.
