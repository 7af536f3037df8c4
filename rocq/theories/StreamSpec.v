(** Specification of stream extraction, in terms of characters and list concatenation. *)

From Coq Require Import String Ascii ZArith NArith Arith Bool List.
From Verif Require Import Base SerializeSpec.
Import ListNotations.

(** The whitespace characters skipped by std::ws: codes 9..13 and 32. *)
Definition space_char (c : ascii) : Prop :=
  (9 <= N_of_ascii c <= 13)%N \/ N_of_ascii c = 32%N.

(** [b] consists of whitespace [l], a maximal token [tok] of non-reserved characters, and [rest]. *)
Definition one_token (reserved : ascii -> Prop) (b l tok rest : str) : Prop :=
  b = l ++ tok ++ rest /\
  Forall space_char l /\
  (forall c r, tok ++ rest = c :: r -> ~ space_char c) /\
  Forall (fun c => ~ reserved c) tok /\
  (forall c r, rest = c :: r -> reserved c).

(** [b] consists of whitespace [l] and [rest], which does not start with whitespace. *)
Definition spaces_then (b l rest : str) : Prop :=
  b = l ++ rest /\ Forall space_char l /\ (forall c r, rest = c :: r -> ~ space_char c).

(** Nothing is left. *)
Definition at_end (rest : str) : bool := match rest with [] => true | _ => false end.

(** A separator that ends an enum token and is skipped before the next one: a space, tab or newline
    followed by any whitespace. *)
Definition blank_separator (sep : str) : Prop :=
  exists c r, sep = c :: r /\ blank_char c /\ Forall space_char r.

(** A separator of which the first character is skipped explicitly: any reserved character followed by
    any whitespace. *)
Definition reserved_separator (sep : str) : Prop :=
  exists c r, sep = c :: r /\ enum_reserved c /\ Forall space_char r.

Definition starts_with_space (n : str) : Prop := exists c r, n = c :: r /\ space_char c.

(** A separator of flags: any character reserved in names of flags, followed by any whitespace. *)
Definition flags_separator (sep : str) : Prop :=
  exists c r, sep = c :: r /\ flags_reserved c /\ Forall space_char r.
