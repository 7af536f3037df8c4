(** Model of to_stream<> and from_stream<>: iostream.hpp:24-87.  What they wrap, the operators << and >>, is modelled by overload
    resolution over a list of binary operators that are not templates.  Streams have the class std::ostream (std::istream) or a class
    derived from it; types of arguments may be converted implicitly, independently of the value category, and all conversions
    between different types are equally good, and better than none only.  Base classes of arguments, constraints, volatile, operators
    that take the stream by value or const reference, and what is found by argument-dependent lookup are not modelled. *)

From Coq Require Import Arith Bool List.
From Verif Require Import Base ForwardModel OverRefModel.
Import ListNotations.

(** std::ostream, std::istream, or a class derived from it; iostream.hpp:30, 48, 66, 84. *)
Inductive sclass := BaseStream | DerivedStream.

(** "R operator <<(S& stream, P arg)" or "operator >>": the class of the stream and the parameter for the argument.  What is called in
    iostream.hpp:33, 51, 69, 87. *)
Record op := mk_op { o_stream : sclass; o_type : nat; o_form : form }.

Section Iostream.

(** Which types can be converted implicitly: [over.best.ics], for the calls of iostream.hpp:33, 51, 69, 87. *)
Variable conv : nat -> nat -> bool.

(** Implicit conversion sequences of an argument: none but the binding of a reference, or a conversion to a temporary of another type.
    [over.best.ics]; for the calls of iostream.hpp:33, 51, 69, 87. *)
Inductive ics := Exact (f : form) | Converted (t : nat) (f : form).
(** [over.ics.ref]: a temporary is an rvalue.  For the calls of iostream.hpp:33, 51, 69, 87. *)
Definition arg_ics (t : nat) (f : form) (a : arg_type) : option ics :=
  if t =? fst a then (if binds f (snd a) then Some (Exact f) else None)
  else if conv (fst a) t && binds f Rv then Some (Converted t f) else None.
(** [over.ics.rank].  For the calls of iostream.hpp:33, 51, 69, 87. *)
Definition better_ics (i j : ics) : bool :=
  match i, j with
  | Exact f, Exact g => better_binding f g
  | Exact _, Converted _ _ => true
  | Converted t f, Converted u g => (t =? u) && better_binding f g
  | Converted _ _, Exact _ => false
  end.
(** A stream can be passed by reference to its class or base class.  For the calls of iostream.hpp:33, 51, 69, 87. *)
Definition stream_binds (p s : sclass) : bool := match p, s with DerivedStream, BaseStream => false | _, _ => true end.
(** The reference to the class itself is better than that to the base class: [over.ics.rank]/4.  For the calls of iostream.hpp:33,
    51, 69, 87. *)
Definition better_stream (p q : sclass) : bool := match p, q with DerivedStream, BaseStream => true | _, _ => false end.

(** Viable operators; for the calls of iostream.hpp:33, 51, 69, 87. *)
Definition op_ics (s : sclass) (a : arg_type) (o : op) : option ics :=
  if stream_binds (o_stream o) s then arg_ics (o_type o) (o_form o) a else None.
(** [over.match.best]; for the calls of iostream.hpp:33, 51, 69, 87. *)
Definition better_op (s : sclass) (a : arg_type) (o o' : op) : bool :=
  match op_ics s a o, op_ics s a o' with
  | Some i, Some j =>
      negb (better_stream (o_stream o') (o_stream o)) && negb (better_ics j i) &&
      (better_stream (o_stream o) (o_stream o') || better_ics i j)
  | _, _ => false
  end.
(** Whether an operator is viable; for the calls of iostream.hpp:33, 51, 69, 87. *)
Definition op_viable (s : sclass) (a : arg_type) (o : op) : bool := match op_ics s a o with Some _ => true | None => false end.

(** Which operator an expression calls, and whether that operator is given the very object that the argument names rather than a copy
    or a converted temporary.  iostream.hpp:33, 51, 69, 87. *)
Record call := mk_call { c_op : nat; c_same : bool }.
(** Whether the parameter is the argument; iostream.hpp:33, 51, 69, 87. *)
Definition same_object (i : ics) : bool := match i with Exact ByValue => false | Exact _ => true | Converted _ _ => false end.

(** "stream << arg" or "stream >> arg" for a stream that is an lvalue; None: no operator is viable or the call is ambiguous.
    iostream.hpp:33, 51, 69, 87. *)
Definition expression (ops : list op) (s : sclass) (a : arg_type) : option call :=
  match filter (fun x => op_viable s a (snd x) &&
                         forallb (fun y => (fst x =? fst y) || negb (op_viable s a (snd y)) || better_op s a (snd x) (snd y))
                           (combine (seq 0 (length ops)) ops))
               (combine (seq 0 (length ops)) ops) with
  | [x] => match op_ics s a (snd x) with Some i => Some (mk_call (fst x) (same_object i)) | None => None end
  | _ => None
  end.

(** A call in an unevaluated operand, as in std::is_invocable<>: valid, a failure of substitution, or an error in the instantiation of a
    class, which is not a failure of substitution.  iostream.hpp:31, 49, 67, 85. *)
Inductive query := Valid (c : call) | Invalid | HardError.
(** The failure of substitution in a trailing return type; iostream.hpp:49, 85. *)
Definition sfinae (r : option call) : query := match r with Some c => Valid c | None => Invalid end.

(** Template arguments: "U", "U const", "U&", "U const&", "U&&", "void".  iostream.hpp:23, 40, 59, 76. *)
Inductive targ := TPlain (u : nat) | TConst (u : nat) | TLref (u : nat) | TCLref (u : nat) | TRref (u : nat) | TVoid.

(** "T const&" once references are collapsed: type, and whether to const; iostream.hpp:30. *)
Definition const_ref (t : targ) : option (nat * bool) :=
  match t with
  | TPlain u | TConst u | TCLref u => Some (u, true)
  | TLref u | TRref u => Some (u, false)
  | TVoid => None
  end.
(** "T&" likewise; iostream.hpp:66. *)
Definition lvalue_ref (t : targ) : option (nat * bool) :=
  match t with
  | TConst u | TCLref u => Some (u, true)
  | TPlain u | TLref u | TRref u => Some (u, false)
  | TVoid => None
  end.

(** "std::ostream& stream" (std::istream&) needs an lvalue that is not const.  Streams as arguments: 0 is the base class, anything else
    is a derived class.  iostream.hpp:30, 48, 66, 84. *)
Definition stream_param (sa : arg_type) : option sclass :=
  match snd sa with Lv => Some (if fst sa =? 0 then BaseStream else DerivedStream) | _ => None end.

(** A function object whose operator () is not a template and takes a std::ostream& (std::istream&) and a reference to [u]: the
    declaration of the operator is instantiated with the class, hence an error unless the expression is valid.  Within the operator,
    the stream is the base class and the argument is an lvalue.  iostream.hpp:30-34, 66-70. *)
Definition call_fixed (ops : list op) (u : nat) (is_const : bool) (sa a : arg_type) : query :=
  match expression ops BaseStream (u, if is_const then CLv else Lv) with
  | None => HardError
  | Some c =>
      match stream_param sa, arg_ics u (if is_const then CLRef else LRef) a with
      | Some _, Some (Exact _) => Valid c
      | Some _, Some (Converted _ _) => Valid (mk_call (c_op c) false)
      | _, _ => Invalid
      end
  end.

(** to_stream<>: "T const& arg" can be deduced for all arguments; iostream.hpp:41-53. *)
Definition call_to_stream (ops : list op) (t : targ) (sa a : arg_type) : query :=
  match const_ref t with
  | Some (u, k) => call_fixed ops u k sa a
  | None =>
      match stream_param sa with
      | Some _ => sfinae (expression ops BaseStream (fst a, CLv))
      | None => Invalid
      end
  end.
(** from_stream<>: "T& arg" is deduced as reference to const for const arguments, and rvalues that are not const cannot be bound;
    iostream.hpp:77-89. *)
Definition call_from_stream (ops : list op) (t : targ) (sa a : arg_type) : query :=
  match lvalue_ref t with
  | Some (u, k) => call_fixed ops u k sa a
  | None =>
      match stream_param sa, snd a with
      | Some _, Lv => sfinae (expression ops BaseStream (fst a, Lv))
      | Some _, (CLv | CRv) => sfinae (expression ops BaseStream (fst a, CLv))
      | _, _ => Invalid
      end
  end.

End Iostream.
