(** Specification of stream extraction with read errors and of padded output. *)

From Coq Require Import String Ascii ZArith NArith Arith Bool List.
From Verif Require Import Base SerializeSpec StreamSpec StreamIoModel.
Import ListNotations.

(** [b] consists of whitespace [l], characters [tok] of a token, and [rest], which is empty or starts with a reserved
    character or a read error.  (Only the data types of StreamIoModel are used here.) *)
Definition io_token (reserved : ascii -> Prop) (b : list buf_item) (l tok : str) (rest : list buf_item) : Prop :=
  b = map Ch l ++ map Ch tok ++ rest /\
  Forall space_char l /\
  (forall c r, map Ch tok ++ rest = Ch c :: r -> ~ space_char c) /\
  Forall (fun c => ~ reserved c) tok /\
  (forall c r, rest = Ch c :: r -> reserved c).

(** Some bit of the exception mask [m] is set in [s]. *)
Definition masked (s m : iostate) : Prop :=
  (st_eof s = true /\ st_eof m = true) \/ (st_fail s = true /\ st_fail m = true) \/ (st_bad s = true /\ st_bad m = true).

(** No bit is set. *)
Definition good (s : iostate) : Prop := st_eof s = false /\ st_fail s = false /\ st_bad s = false.

(** All bits of [s] are set in [s']. *)
Definition bits_kept (s s' : iostate) : Prop :=
  (st_eof s = true -> st_eof s' = true) /\ (st_fail s = true -> st_fail s' = true) /\ (st_bad s = true -> st_bad s' = true).

(** [t] is [s], filled up to at least [w] characters with [fill], on the right if [left] is set, on the left otherwise. *)
Definition filled (fill : ascii) (left : bool) (w : Z) (s t : str) : Prop :=
  exists p, t = (if left then s ++ p else p ++ s) /\ Forall (fun c => c = fill) p /\ Z.of_nat (length t) = Z.max w (Z.of_nat (length s)).

(** Effect of the text after the token on a stream with exception mask [m]: what is left unread, the state bits, and the
    exception, if one is thrown.  At the end eofbit is set; a read error is dropped and sets badbit. *)
Definition stop (m : iostate) (rest : list buf_item) : list buf_item * iostate * option io_exn :=
  match rest with
  | [] => ([], eofbit, if st_eof m then Some IosFailure else None)
  | Ch _ :: _ => (rest, goodbit, None)
  | Err e :: r => (r, badbit, if st_bad m then Some (Foreign e) else None)
  end.
