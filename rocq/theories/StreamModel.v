(** Model of the stream manipulators as_enum() and as_flags():
    /repo/include/makeshift/iomanip.hpp and /repo/include/makeshift/detail/iomanip.hpp. *)

From Coq Require Import String Ascii ZArith NArith Arith Bool List.
From Verif Require Import Base SerializeModel.
Import ListNotations.

(** A std::istream: unread characters, eofbit, failbit.  (badbit and the exception mask are not
    modelled; the characters are those the buffer will deliver until it ends.).  The streams of iomanip.hpp:48, 74. *)
Record istream := mk_istream {
  is_buf : str;
  is_eof : bool;
  is_fail : bool
}.

(** ios::good().  iomanip.hpp:53, 79. *)
Definition is_good (st : istream) : bool := negb (is_eof st) && negb (is_fail st).

(** ios::setstate(failbit).  iomanip.hpp:59, 85. *)
Definition set_fail (st : istream) : istream := mk_istream (is_buf st) (is_eof st) true.

(** std::isspace in the classic locale: \t \n \v \f \r and space.  Used by std::ws in iomanip.hpp:52, 78. *)
Definition is_space (c : ascii) : bool :=
  let n := uchar c in (N.leb 9 n && N.leb n 13) || N.eqb n 32.

(** Extraction loop of std::ws; reaching the end sets eofbit.  iomanip.hpp:52, 78. *)
Fixpoint ws_loop (b : str) : str * bool :=
  match b with
  | [] => ([], true)
  | c :: r => if is_space c then ws_loop r else (b, false)
  end.

(** stream >> std::ws.  [sentry]: whether std::ws constructs a sentry, which sets failbit on a stream that is not good
    and keeps the characters from being extracted (C++ standard; libstdc++ before GCC 11 extracts them whatever the
    state of the stream is).  The theorems cover both.  iomanip.hpp:52, 78. *)
Definition ws (sentry : bool) (st : istream) : istream :=
  if sentry && negb (is_good st) then set_fail st
  else let '(b, e) := ws_loop (is_buf st) in mk_istream b (is_eof st || e) (is_fail st).

(** The extraction loops: iomanip.hpp:53-56 and 79-82.  Entered with the characters of a good stream;
    peek() at the end of the stream sets eofbit. *)
Fixpoint read_loop (set : char_bitset) (b : str) (acc : str) : outcome (str * istream) :=
  match b with
  | [] => Ok (acc, mk_istream [] true false)
  | c :: r =>
      do f <- char_bitset_contains set c;
      if f then Ok (acc, mk_istream b false false)
      else read_loop set r (acc ++ [c])
  end.
(** iomanip.hpp:50-56, 76-82. *)
Definition read_token (set : char_bitset) (st : istream) : outcome (str * istream) :=
  if is_good st then read_loop set (is_buf st) []
  else Ok ([], st).

(** stream >> as_enum(value): iomanip.hpp:48-61.  The sets of forbidden characters are the globals of
    detail/serialize.hpp:79,189.  Returns the stream and the new content of [value]. *)
Definition extract_enum (sentry : bool) (src : enum_source Z) (st : istream) (value : Z)
    : outcome (istream * Z) :=
  do md <- static_enum_metadata src;
  do set <- char_bitset_make enum_forbidden_chars;
  let st := ws sentry st in
  do ' (s, st) <- read_token set st;
  match s with
  | [] => Ok (set_fail st, value)
  | _ =>
      let '(rc, value) := try_enum_from_string value s md in
      if negb (Z.eqb rc 0) then Ok (set_fail st, value) else Ok (st, value)
  end.

(** stream >> as_flags(value): iomanip.hpp:74-87. *)
Definition extract_flags (sentry : bool) (src : enum_source N) (st : istream) (value : N)
    : outcome (istream * N) :=
  do md <- static_flags_metadata src;
  do set <- char_bitset_make flags_forbidden_chars;
  let st := ws sentry st in
  do ' (s, st) <- read_token set st;
  do ' (rc, value) <- flags_from_string value s (fmd_base md) false;
  if negb (Z.eqb rc 0) then Ok (set_fail st, value) else Ok (st, value).

(** stream << as_enum(value): iomanip.hpp:44-47.  [out] is what has been written so far; padding with
    a field width is not modelled (width 0). *)
Definition insert_enum (src : enum_source Z) (out : str) (value : Z) : outcome str :=
  do md <- static_enum_metadata src;
  do s <- enum_to_string value md;
  Ok (out ++ s).

(** stream << as_flags(value): iomanip.hpp:70-73. *)
Definition insert_flags (w : N) (src : enum_source N) (out : str) (value : N) : outcome str :=
  do md <- static_flags_metadata src;
  do s <- flags_to_string w value md;
  Ok (out ++ s).

(** User code for the round trip: write the values of a list, each followed by its separator.  With iomanip.hpp:44-47. *)
Fixpoint write_enums (src : enum_source Z) (out : str) (l : list (Z * str)) : outcome str :=
  match l with
  | [] => Ok out
  | (v, sep) :: r =>
      do out <- insert_enum src out v;
      write_enums src (out ++ sep) r
  end.

(** User code: read [n] values with stream >> as_enum(v), into variables that start with [v0].  If [skip]
    is set, one character is extracted with stream.get() after each value.  Used with iomanip.hpp:48-61. *)
Definition get1 (st : istream) : istream :=
  if is_good st then
    match is_buf st with
    | [] => mk_istream [] true true
    | _ :: r => mk_istream r false false
    end
  else set_fail st.
(** With iomanip.hpp:48-61. *)
Fixpoint read_enums (sentry skip : bool) (src : enum_source Z) (v0 : Z) (st : istream) (n : nat)
    : outcome (istream * list Z) :=
  match n with
  | O => Ok (st, [])
  | S n' =>
      do ' (st, v) <- extract_enum sentry src st v0;
      let st := if skip then get1 st else st in
      do ' (st, vs) <- read_enums sentry skip src v0 st n';
      Ok (st, v :: vs)
  end.

(** The same for flags: each combination of a list, followed by its separator; one character is skipped after each
    when reading.  With iomanip.hpp:70-73. *)
Fixpoint write_flags (w : N) (src : enum_source N) (out : str) (l : list (N * str)) : outcome str :=
  match l with
  | [] => Ok out
  | (v, sep) :: r =>
      do out <- insert_flags w src out v;
      write_flags w src (out ++ sep) r
  end.
(** With iomanip.hpp:74-87. *)
Fixpoint read_flags (sentry : bool) (src : enum_source N) (v0 : N) (st : istream) (n : nat)
    : outcome (istream * list N) :=
  match n with
  | O => Ok (st, [])
  | S n' =>
      do ' (st, v) <- extract_flags sentry src st v0;
      do ' (st, vs) <- read_flags sentry src v0 (get1 st) n';
      Ok (st, v :: vs)
  end.
