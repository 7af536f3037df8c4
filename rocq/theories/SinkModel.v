(** Model of any_sink and any_source, and of the iterator tags that are made with any_sink: experimental/utility.hpp:71-97,
    detail/type_traits.hpp:17-22, detail/zip.hpp:136-203.

    Overload resolution is modelled for functions of one argument, in terms of the implicit conversion sequences of the argument. *)

From Coq Require Import NArith Arith Bool List.
From Verif Require Import Base ZipModel.
Import ListNotations.

(** * Fallback overloads *)

(** Implicit conversion sequences, [over.best.ics]: standard conversions of some rank (smaller is better), a user-defined conversion by a
    constructor or conversion function [f] followed by a standard conversion, the conversion to any_sink by its constructor, the ellipsis.
    Arguments of experimental/utility.hpp:74-76. *)
Inductive conversion := Standard (r : nat) | UserDefined (f r : nat) | ToSink | Ellipsis.
(** [over.ics.rank]: two user-defined conversions can be compared only if they use the same function.  Arguments of
    experimental/utility.hpp:74-76. *)
Definition better_conversion (c d : conversion) : bool :=
  match c, d with
  | Standard r, Standard q => r <? q
  | Standard _, _ => true
  | UserDefined f r, UserDefined g q => (f =? g) && (r <? q)
  | UserDefined _ _, Ellipsis | ToSink, Ellipsis => true
  | _, _ => false
  end.
(** Overloads: how the argument is converted, if it can be, and for templates how specialised they are (smaller is more).
    experimental/utility.hpp:74-76. *)
Record candidate := mk_cand { k_conv : option conversion; k_template : option nat }.
(** [over.match.best]: functions are preferred to templates, and more specialised templates to others, if the conversions do not
    decide.  experimental/utility.hpp:74-76. *)
Definition better_template (t u : option nat) : bool :=
  match t, u with None, Some _ => true | Some n, Some m => n <? m | _, _ => false end.
(** Likewise, experimental/utility.hpp:74-76. *)
Definition better_cand (k l : candidate) : bool :=
  match k_conv k, k_conv l with
  | Some c, Some d => better_conversion c d || (negb (better_conversion d c) && better_template (k_template k) (k_template l))
  | Some _, None => true
  | None, _ => false
  end.
(** The overload that is called: viable and better than all others.  None: not viable or ambiguous.  experimental/utility.hpp:74-76. *)
Definition resolve (ks : list candidate) : option nat :=
  let ns := combine (seq 0 (length ks)) ks in
  match filter (fun x => match k_conv (snd x) with
                         | Some _ => forallb (fun y => (fst x =? fst y) || better_cand (snd x) (snd y)) ns
                         | None => false
                         end) ns with
  | [x] => Some (fst x)
  | _ => None
  end.
(** "Color color(any_sink)" for an argument that is not itself an any_sink: the constructor takes everything.
    experimental/utility.hpp:76-84, detail/type_traits.hpp:17-22. *)
Definition sink : candidate := mk_cand (Some ToSink) None.

(** * Values from nowhere *)

(** Whether "any_source{ }" is converted to a value of a type: of object type, or a reference.  The template parameter T of the
    conversion function is never a reference, so that it gives a prvalue, which cannot be bound to an lvalue reference to non-const;
    functions do not return arrays or functions.  experimental/utility.hpp:90-97. *)
Inductive target := Object | LvalueRef | ConstLvalueRef | RvalueRef | ArrayType | FunctionRef.
(** Whether the conversion compiles.  experimental/utility.hpp:90-97. *)
Definition source_converts (t : target) : bool :=
  match t with Object | ConstLvalueRef | RvalueRef => true | LvalueRef | ArrayType | FunctionRef => false end.
(** Using the conversion: in an unevaluated operand, only its type matters; when evaluated, control flows off the end of a function that
    returns a value, which is undefined, or makes a constant expression ill-formed.  experimental/utility.hpp:90-97. *)
Inductive context := Unevaluated | Evaluated | ConstantExpression.
(** Likewise, experimental/utility.hpp:90-97. *)
Definition use_source (x : context) (t : target) : outcome unit :=
  if source_converts t then
    match x with Unevaluated => Ok tt | Evaluated => UB | ConstantExpression => IllFormed end
  else IllFormed.

(** * Iterator tags *)

(** The tags of the standard library, which are the base classes and parameters of detail/zip.hpp:141-149, 188-197. *)
Inductive stdtag := TInput | TForward | TBidirectional | TRandomAccess | TContiguous | TOutput.
(** [std.iterator.tags]: whether the first is the second or derived from it.  For detail/zip.hpp:141-149. *)
Definition level (s : stdtag) : nat :=
  match s with TInput => 1 | TForward => 2 | TBidirectional => 3 | TRandomAccess => 4 | TContiguous => 5 | TOutput => 0 end.
(** Likewise, for detail/zip.hpp:141-149. *)
Definition std_derives (s b : stdtag) : bool :=
  match s, b with
  | TOutput, TOutput => true
  | TOutput, _ | _, TOutput => false
  | _, _ => level b <=? level s
  end.
(** Tag classes: those of the standard, and classes with base classes and conversion functions to tags of the standard.
    Arguments of detail/zip.hpp:141-149; all have default constructors. *)
Inductive tag := Std (s : stdtag) | Class (bases : list tag) (convs : list stdtag).
(** The number of subobjects of a class; base classes are not virtual.  For detail/zip.hpp:141-149. *)
Fixpoint subobjects (t : tag) (b : stdtag) : nat :=
  match t with
  | Std s => if std_derives s b then 1 else 0
  | Class bs _ => (fix sum (l : list tag) : nat := match l with [] => 0 | t' :: r => subobjects t' b + sum r end) bs
  end.
(** Conversion functions, also inherited ones: whether one gives the tag or a class derived from it.  For detail/zip.hpp:141-149. *)
Fixpoint converts (t : tag) (b : stdtag) : bool :=
  match t with
  | Std _ => false
  | Class bs cs =>
      existsb (fun c => std_derives c b) cs ||
      (fix any (l : list tag) : bool := match l with [] => false | t' :: r => converts t' b || any r end) bs
  end.
(** The overload for a tag of the standard: conversion to a base class, which is the better the more derived it is, [over.ics.rank]/4;
    otherwise by a conversion function (which one is immaterial).  detail/zip.hpp:142-145, 149. *)
Definition tag_cand (t : tag) (b : stdtag) : candidate :=
  mk_cand (if 0 <? subobjects t b then Some (Standard (5 - level b)) else if converts t b then Some (UserDefined 0 0) else None) None.
(** Calls of an overload for the [n]-th tag: an ambiguous base class cannot be converted to.  Calls in detail/zip.hpp:180, 185. *)
Definition tag_bit (t : tag) (bs : list stdtag) : outcome N :=
  match resolve (sink :: map (tag_cand t) bs) with
  | None => IllFormed
  | Some 0 => Ok 0%N
  | Some (S n) => if subobjects t (nth n bs TOutput) =? 1 then Ok (N.of_nat (S n)) else IllFormed
  end.
(** input_iterator_tag_bit(): detail/zip.hpp:137-145. *)
Definition input_tag_bit (t : tag) : outcome N := tag_bit t [TInput; TForward; TBidirectional; TRandomAccess].
(** output_iterator_tag_bit(): detail/zip.hpp:147-149. *)
Definition output_tag_bit (t : tag) : outcome N := tag_bit t [TOutput].
(** input_iterator_tag_base<>: detail/zip.hpp:188-193. *)
Definition input_tag_base (bit : N) : outcome tag :=
  match bit with
  | 0%N => Ok (Class [] []) | 1%N => Ok (Class [Std TInput] []) | 2%N => Ok (Class [Std TForward] [])
  | 3%N => Ok (Class [Std TBidirectional] []) | 4%N => Ok (Class [Std TRandomAccess] []) | _ => IllFormed
  end.
(** output_iterator_tag_base<>: detail/zip.hpp:194-196. *)
Definition output_tag_base (bit : N) : outcome tag :=
  match bit with 0%N => Ok (Class [] []) | 1%N => Ok (Class [Std TOutput] []) | _ => IllFormed end.
(** common_iterator_tag<>: detail/zip.hpp:177-186, 198-203. *)
Definition common_tag (ts : list tag) : outcome tag :=
  do is_ <- mapM input_tag_bit ts;
  do i <- bit_width (cbitand (map fill_mask is_));
  do os <- mapM output_tag_bit ts;
  do o <- bit_width (cbitand (map fill_mask os));
  do ib <- input_tag_base i;
  do ob <- output_tag_base o;
  Ok (Class [ib; ob] []).
