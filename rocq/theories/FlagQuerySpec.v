(** Specification of the queries of flags. *)

From Coq Require Import ZArith Bool.
Local Open Scope Z_scope.

(** Bit [i] of the two's complement pattern with [w] bits of the value [v]. *)
Definition bit (w v i : Z) : Prop := 0 <= i < w /\ Z.odd (v / 2 ^ i) = true.

Definition all_bits (w h n : Z) : Prop := forall i, bit w n i -> bit w h i.
Definition some_bit (w h n : Z) : Prop := exists i, bit w n i /\ bit w h i.
(** Exactly one bit is set, number [i]. *)
Definition only_bit (w v i : Z) : Prop := bit w v i /\ forall j, bit w v j -> j = i.
