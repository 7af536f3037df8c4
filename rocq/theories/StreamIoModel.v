(** Model of the stream manipulators as_enum() and as_flags() on streams with an exception mask and a stream buffer that
    may fail, and of their output with a field width:
    /repo/include/makeshift/iomanip.hpp and /repo/include/makeshift/detail/iomanip.hpp.
    The stream functions they call (std::ws, good(), peek(), get(), setstate(), operator<< for strings) belong to the
    standard library and are modelled after the C++ standard (sections given below). *)

From Coq Require Import String Ascii ZArith NArith Arith Bool List.
From Verif Require Import Base SerializeModel StreamModel.
Import ListNotations.

(** What sgetc() or sbumpc() of a stream buffer yields: a character, the end of the sequence, or an exception.
    Called by the stream functions in iomanip.hpp:52-55, 78-81. *)
Inductive buf_result := BChar (c : ascii) | BEof | BThrow (e : exn).

(** Exceptions seen by the caller: std::ios_base::failure thrown by the stream, or an exception of the stream buffer
    that passes through.  What iomanip.hpp:52-59, 78-85 may throw. *)
Inductive io_exn := IosFailure | Foreign (e : exn).

(** Result of a call: it returns a value or throws.  Of the calls in iomanip.hpp:52-59, 78-85. *)
Inductive io_out (A : Type) := Ret (a : A) | Raise (x : io_exn).
Arguments Ret {A}. Arguments Raise {A}.

(** Sets of eofbit, failbit and badbit.  The states tested and set in iomanip.hpp:53, 59, 79, 85. *)
Record iostate := mk_iostate { st_eof : bool; st_fail : bool; st_bad : bool }.
(** For setstate(): iomanip.hpp:59, 85. *)
Definition iostate_or (a b : iostate) : iostate := mk_iostate (st_eof a || st_eof b) (st_fail a || st_fail b) (st_bad a || st_bad b).
(** For setstate(): iomanip.hpp:59, 85. *)
Definition iostate_and (a b : iostate) : iostate := mk_iostate (st_eof a && st_eof b) (st_fail a && st_fail b) (st_bad a && st_bad b).
(** For good(): iomanip.hpp:53, 79. *)
Definition iostate_none (a : iostate) : bool := negb (st_eof a) && negb (st_fail a) && negb (st_bad a).
(** iomanip.hpp:53, 79 (good()). *)
Definition goodbit := mk_iostate false false false.
(** Set by the calls in iomanip.hpp:52-53, 78-79. *)
Definition eofbit := mk_iostate true false false.
(** iomanip.hpp:59, 85. *)
Definition failbit := mk_iostate false true false.
(** Set by the calls in iomanip.hpp:52-55, 78-81. *)
Definition badbit := mk_iostate false false true.

Section Io.
  (** Any stream buffer: its states, and what sgetc() (the character at the reading position) and sbumpc() (the same, and
      advance) do.  Nothing is assumed of them. *)
  Variable B : Type.
  Variables sgetc sbumpc : B -> B * buf_result.

  (** A std::istream: stream buffer, rdstate(), exceptions().  The parameter of iomanip.hpp:48, 74. *)
  Record iostream := mk_iostream { io_buf : B; io_state : iostate; io_mask : iostate }.

  (** Computations on a stream.  The bodies in iomanip.hpp:50-60, 76-86. *)
  Definition io (A : Type) : Type := iostream -> outcome (iostream * io_out A).
  (** As [io]: iomanip.hpp:50-60, 76-86. *)
  Definition io_ret {A} (a : A) : io A := fun st => Ok (st, Ret a).
  (** As [io]: iomanip.hpp:50-60, 76-86. *)
  Definition io_bind {A C} (m : io A) (f : A -> io C) : io C := fun st =>
    do ' (st, r) <- m st; match r with Ret a => f a st | Raise x => Ok (st, Raise x) end.
  (** As [io]: iomanip.hpp:50-60, 76-86. *)
  Definition io_lift {A} (m : outcome A) : io A := fun st => do a <- m; Ok (st, Ret a).
  Local Notation "'let!' x := m 'in' f" := (io_bind m (fun x => f)) (at level 200, x pattern, m at level 100, f at level 200).

  (** ios::good().  Called in iomanip.hpp:53, 79. *)
  Definition io_good : io bool := fun st => Ok (st, Ret (iostate_none (io_state st))).

  (** ios::setstate(bits) ([iostate.flags]): throws ios_base::failure if a bit of exceptions() is set afterwards.  Called in iomanip.hpp:59, 85. *)
  Definition setstate (bits : iostate) : io unit := fun st =>
    let s := iostate_or (io_state st) bits in
    Ok (mk_iostream (io_buf st) s (io_mask st), if iostate_none (iostate_and s (io_mask st)) then Ret tt else Raise IosFailure).

  (** An exception [e] of the stream buffer during input ([istream.unformatted]): badbit is set without throwing failure;
      the exception is rethrown if exceptions() contains badbit.  In the calls of iomanip.hpp:52-55, 78-81. *)
  Definition input_exception (e : exn) : io unit := fun st =>
    Ok (mk_iostream (io_buf st) (iostate_or (io_state st) badbit) (io_mask st), if st_bad (io_mask st) then Raise (Foreign e) else Ret tt).

  (** Construction of istream::sentry with noskipws ([istream.sentry]); streams tied to the stream are not modelled.
      In the calls of iomanip.hpp:52-55, 78-81. *)
  Definition sentry_ : io bool :=
    let! g := io_good in
    if g then io_ret true else let! _ := setstate failbit in io_ret false.

  (** sgetc() and sbumpc() of the stream's buffer.  In the calls of iomanip.hpp:52-55, 78-81. *)
  Definition buf_call (f : B -> B * buf_result) : io buf_result := fun st =>
    let '(b, r) := f (io_buf st) in Ok (mk_iostream b (io_state st) (io_mask st), Ret r).

  (** istream::peek() and istream::get(); None is traits::eof().  peek() is called in iomanip.hpp:53, 79. *)
  Definition io_peek : io (option ascii) :=
    let! ok := sentry_ in
    if ok then
      let! r := buf_call sgetc in
      match r with
      | BChar c => io_ret (Some c)
      | BEof => let! _ := setstate eofbit in io_ret None
      | BThrow e => let! _ := input_exception e in io_ret None
      end
    else io_ret None.
  (** Called in iomanip.hpp:55, 81. *)
  Definition io_get : io (option ascii) :=
    let! ok := sentry_ in
    if ok then
      let! r := buf_call sbumpc in
      match r with
      | BChar c => io_ret (Some c)
      | BEof => let! _ := setstate (mk_iostate true true false) in io_ret None
      | BThrow e => let! _ := input_exception e in let! _ := setstate failbit in io_ret None
      end
    else io_ret None.

  (** snextc(): sbumpc(), then sgetc() unless the end was reached.  In the calls of iomanip.hpp:52, 78. *)
  Definition snextc (b : B) : B * buf_result :=
    let '(b, r) := sbumpc b in
    match r with
    | BChar _ => sgetc b
    | _ => (b, r)
    end.

  (** The loop of std::ws ([istream.manip]); a stream buffer may deliver whitespace forever.  Called in iomanip.hpp:52, 78. *)
  Fixpoint io_ws_loop (fuel : nat) (r : buf_result) : io buf_result :=
    match r with
    | BChar c =>
        if is_space c then
          match fuel with
          | O => fun _ => OutOfFuel
          | S fuel => let! r := buf_call snextc in io_ws_loop fuel r
          end
        else io_ret r
    | _ => io_ret r
    end.

  (** stream >> std::ws; [sentry] as in StreamModel.ws: without it (libstdc++ before GCC 11) the state of the stream is
      not considered, and exceptions of the buffer are not caught.  Called in iomanip.hpp:52, 78. *)
  Definition io_ws (sentry : bool) (fuel : nat) : io unit :=
    let! ok := if sentry then sentry_ else io_ret true in
    if ok then
      let! r := buf_call sgetc in
      let! r := io_ws_loop fuel r in
      match r with
      | BChar _ => io_ret tt
      | BEof => setstate eofbit
      | BThrow e => if sentry then input_exception e else fun st => Ok (st, Raise (Foreign e))
      end
    else io_ret tt.

  (** static_cast<char>(stream.get()): iomanip.hpp:55,81; traits::eof() (-1) becomes the character with code 255. *)
  Definition char_of_int (ci : option ascii) : ascii := match ci with Some c => c | None => ascii_of_N 255 end.

  (** The extraction loops: iomanip.hpp:53-56 and 79-82. *)
  Fixpoint io_read_loop (fuel : nat) (set : char_bitset) (str_ : str) : io str :=
    let! g := io_good in
    if g then
      let! ci := io_peek in
      match ci with
      | None => io_ret str_
      | Some c =>
          let! f := io_lift (char_bitset_contains set c) in
          if f then io_ret str_
          else
            match fuel with
            | O => fun _ => OutOfFuel
            | S fuel => let! ci := io_get in io_read_loop fuel set (str_ ++ [char_of_int ci])
            end
      end
    else io_ret str_.

  (** stream >> as_enum(value): iomanip.hpp:48-61.  [value]: the variable; its new content is part of the result also if
      an exception is thrown (nothing is written to it before the name has been looked up). *)
  Definition io_extract_enum (sentry : bool) (fuel : nat) (src : enum_source Z) (st : iostream) (value : Z) : outcome (iostream * Z * option io_exn) :=
    do md <- static_enum_metadata src;
    do set <- char_bitset_make enum_forbidden_chars;
    do ' (st, r) <- (let! _ := io_ws sentry fuel in io_read_loop fuel set []) st;
    match r with
    | Raise x => Ok (st, value, Some x)
    | Ret s =>
        let '(rc, value) := match s with [] => (1%Z, value) | _ => try_enum_from_string value s md end in
        if negb (Z.eqb rc 0) then
          do ' (st, r) <- setstate failbit st;
          Ok (st, value, match r with Raise x => Some x | Ret _ => None end)
        else Ok (st, value, None)
    end.

  (** stream >> as_flags(value): iomanip.hpp:74-87. *)
  Definition io_extract_flags (sentry : bool) (fuel : nat) (src : enum_source N) (st : iostream) (value : N) : outcome (iostream * N * option io_exn) :=
    do md <- static_flags_metadata src;
    do set <- char_bitset_make flags_forbidden_chars;
    do ' (st, r) <- (let! _ := io_ws sentry fuel in io_read_loop fuel set []) st;
    match r with
    | Raise x => Ok (st, value, Some x)
    | Ret s =>
        do ' (rc, value) <- flags_from_string value s (fmd_base md) false;
        if negb (Z.eqb rc 0) then
          do ' (st, r) <- setstate failbit st;
          Ok (st, value, match r with Raise x => Some x | Ret _ => None end)
        else Ok (st, value, None)
    end.
End Io.
Arguments mk_iostream {B}. Arguments io_buf {B}. Arguments io_state {B}. Arguments io_mask {B}.
Arguments io_extract_enum {B}. Arguments io_extract_flags {B}.

(** A stream buffer with a given finite content: characters, and places where reading throws an exception once.  (A buffer
    that has delivered a character with sgetc() delivers it with sbumpc().).  An instance for the parameter of iomanip.hpp:48, 74. *)
Inductive buf_item := Ch (c : ascii) | Err (e : exn).
(** An instance for the calls of iomanip.hpp:52-53, 78-79. *)
Definition list_sgetc (b : list buf_item) : list buf_item * buf_result :=
  match b with
  | [] => ([], BEof)
  | Ch c :: _ => (b, BChar c)
  | Err e :: r => (r, BThrow e)
  end.
(** An instance for the calls of iomanip.hpp:52, 55, 78, 81. *)
Definition list_sbumpc (b : list buf_item) : list buf_item * buf_result :=
  match b with
  | [] => ([], BEof)
  | Ch c :: r => (r, BChar c)
  | Err e :: r => (r, BThrow e)
  end.

(** A std::ostream in good state: what has been written, width(), fill(), and whether adjustfield is left.  (Output errors
    are not modelled.).  The parameter of iomanip.hpp:44, 70. *)
Record ostream := mk_ostream { os_out : str; os_width : Z; os_fill : ascii; os_left : bool }.

(** stream << s for a std::string ([string.io], [ostream.formatted.reqmts]).  Called in iomanip.hpp:46, 72. *)
Definition os_put (os : ostream) (s : str) : ostream :=
  let pad := repeat (os_fill os) (Z.to_nat (os_width os - Z.of_nat (length s))) in
  mk_ostream (os_out os ++ (if os_left os then s ++ pad else pad ++ s)) 0 (os_fill os) (os_left os).

(** stream << as_enum(value): iomanip.hpp:44-47; the whole result of enum_to_string() is one string. *)
Definition put_enum (src : enum_source Z) (os : ostream) (value : Z) : outcome ostream :=
  do md <- static_enum_metadata src;
  do s <- enum_to_string value md;
  Ok (os_put os s).

(** stream << as_flags(value): iomanip.hpp:70-73. *)
Definition put_flags (w : N) (src : enum_source N) (os : ostream) (value : N) : outcome ostream :=
  do md <- static_flags_metadata src;
  do s <- flags_to_string w value md;
  Ok (os_put os s).

(** User code: stream << (left | right) << std::setw(width) << as_enum(value) << sep for each item of a list.  It uses iomanip.hpp:44-47, 70-73. *)
Record field (A : Type) := mk_field { fd_value : A; fd_width : Z; fd_left : bool; fd_sep : str }.
Arguments mk_field {A}. Arguments fd_value {A}. Arguments fd_width {A}. Arguments fd_left {A}. Arguments fd_sep {A}.
(** It uses iomanip.hpp:44-47, 70-73. *)
Fixpoint put_fields {A} (put : ostream -> A -> outcome ostream) (os : ostream) (l : list (field A)) : outcome ostream :=
  match l with
  | [] => Ok os
  | f :: r =>
      do os <- put (mk_ostream (os_out os) (fd_width f) (os_fill os) (fd_left f)) (fd_value f);
      put_fields put (os_put os (fd_sep f)) r
  end.
