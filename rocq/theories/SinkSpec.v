(** What is said about any_sink, any_source and iterator tags. *)

From Coq Require Import NArith Arith Bool List.
From Verif Require Import Base ZipModel SinkModel.
Import ListNotations.

(** Overload [n] is viable and better than all others. *)
Definition best_of (ks : list candidate) (n : nat) : Prop :=
  exists k, nth_error ks n = Some k /\ k_conv k <> None /\
    forall m l, nth_error ks m = Some l -> m <> n -> better_cand k l = true.

(** When a conversion is preferred to another. *)
Definition preferred (c d : conversion) : Prop :=
  (exists r q, c = Standard r /\ d = Standard q /\ r < q) \/
  ((exists r, c = Standard r) /\ forall q, d <> Standard q) \/
  (exists f r q, c = UserDefined f r /\ d = UserDefined f q /\ r < q) \/
  (c <> Ellipsis /\ d = Ellipsis).
(** When a template or function is preferred to another. *)
Definition more_special (t u : option nat) : Prop := (t = None /\ u <> None) \/ exists n m, t = Some n /\ u = Some m /\ n < m.

(** How an overload can be called. *)
Definition by_standard (k : candidate) : Prop := exists r, k_conv k = Some (Standard r).
Definition by_user (k : candidate) : Prop := exists f r, k_conv k = Some (UserDefined f r).
(** Overloads other than that for any_sink do not take any_sink. *)
Definition not_sink (k : candidate) : Prop := k_conv k <> Some ToSink.

(** The tags that a class is derived from. *)
Inductive derives : tag -> stdtag -> Prop :=
| derives_std : forall s b, (b = TOutput <-> s = TOutput) -> level b <= level s -> derives (Std s) b
| derives_base : forall t bs cs b, In t bs -> derives t b -> derives (Class bs cs) b.
(** The tags that are looked for. *)
Definition input_tag (b : stdtag) : Prop := b = TInput \/ b = TForward \/ b = TBidirectional \/ b = TRandomAccess.
(** The most derived of them. *)
Definition strongest (t : tag) (b : stdtag) : Prop :=
  input_tag b /\ derives t b /\ forall b', input_tag b' -> derives t b' -> level b' <= level b.
(** There is one such base class subobject only. *)
Definition unambiguous (t : tag) (b : stdtag) : Prop := subobjects t b = 1.
(** Tags that are accepted in zips: the strongest input tag and the output tag are not ambiguous, and tags that are not derived from such
    tags have no conversion functions to them. *)
Definition proper_tag (t : tag) : Prop :=
  (forall b, strongest t b -> unambiguous t b) /\
  ((forall b, input_tag b -> ~ derives t b) -> forall b, input_tag b -> converts t b = false) /\
  (derives t TOutput -> unambiguous t TOutput) /\
  (~ derives t TOutput -> converts t TOutput = false).
