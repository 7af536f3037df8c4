(** Model of the string conversions for enums and flags:
    /repo/include/makeshift/detail/serialize.hpp and /repo/include/makeshift/string.hpp.

    Simplifications (all of this file): string_view is a list of characters, enum values
    are integers (their underlying value), flags are bit patterns of [w] bits in [N]. *)

From Coq Require Import String Ascii ZArith NArith Arith Bool List.
From Verif Require Import Base.
Import ListNotations.

(* ------------------------------------------------------------------------ *)
(** ** Characters and character sets *)

(** [operator ==] of characters / of string_views (standard library).  As used by the string_views of detail/serialize.hpp:134, 349. *)
Definition char_eqb (a b : ascii) : bool := Ascii.eqb a b.

(** detail/serialize.hpp:134, 349. *)
Fixpoint str_eqb (a b : str) : bool :=
  match a, b with
  | [], [] => true
  | x :: a', y :: b' => char_eqb x y && str_eqb a' b'
  | _, _ => false
  end.

(** static_cast<unsigned char>(ch): detail/serialize.hpp:40,46. *)
Definition uchar (c : ascii) : N := N_of_ascii c.

(** sizeof(std::size_t)*CHAR_BIT: detail/serialize.hpp:29.  64-bit target. *)
Definition size_t_bits : N := 64%N.

(** char_bitset::data_: detail/serialize.hpp:32. [(256 + 63)/64 = 4] words. *)
Definition char_bitset := list N.
(** "data_{ }": detail/serialize.hpp:36. *)
Definition char_bitset_empty : char_bitset := [0%N; 0%N; 0%N; 0%N].

(** One iteration of the constructor's loop: detail/serialize.hpp:40-41. *)
Definition char_bitset_add (d : char_bitset) (ch : ascii) : outcome char_bitset :=
  let uc := uchar ch in
  let i := N.to_nat (uc / size_t_bits) in
  do w <- arr_get d i;
  arr_set d i (N.lor w (N.shiftl 1 (uc mod size_t_bits))).

(** char_bitset(chars): detail/serialize.hpp:35-43. *)
Fixpoint char_bitset_fill (d : char_bitset) (chars : str) : outcome char_bitset :=
  match chars with
  | [] => Ok d
  | ch :: r => do d' <- char_bitset_add d ch; char_bitset_fill d' r
  end.
(** char_bitset(chars): detail/serialize.hpp:35-43. *)
Definition char_bitset_make (chars : str) : outcome char_bitset :=
  char_bitset_fill char_bitset_empty chars.

(** char_bitset::contains(): detail/serialize.hpp:44-48. *)
Definition char_bitset_contains (d : char_bitset) (ch : ascii) : outcome bool :=
  let uc := uchar ch in
  do w <- arr_get d (N.to_nat (uc / size_t_bits));
  Ok (negb (N.eqb (N.land w (N.shiftl 1 (uc mod size_t_bits))) 0)).

(* ------------------------------------------------------------------------ *)
(** ** string_view searching (standard library behaviour) *)

(** For the searches of detail/serialize.hpp:56, 61, 100, 219, 333. *)
Definition char_in (cs : str) (c : ascii) : bool := existsb (char_eqb c) cs.

(** string_view::find_first_of; [None] is npos.  detail/serialize.hpp:100, 219, 333. *)
Fixpoint find_first_of (s cs : str) : option nat :=
  match s with
  | [] => None
  | c :: r => if char_in cs c then Some 0 else option_map S (find_first_of r cs)
  end.

(** string_view::find_first_not_of.  detail/serialize.hpp:56. *)
Fixpoint find_first_not_of (s cs : str) : option nat :=
  match s with
  | [] => None
  | c :: r => if char_in cs c then option_map S (find_first_not_of r cs) else Some 0
  end.

(** string_view::find_last_not_of.  detail/serialize.hpp:61. *)
Fixpoint find_last_not_of (s cs : str) : option nat :=
  match s with
  | [] => None
  | c :: r => match find_last_not_of r cs with
              | Some i => Some (S i)
              | None => if char_in cs c then None else Some 0
              end
  end.

(** string_view::substr(pos, count); pos <= size() at all uses.  detail/serialize.hpp:62, 337. *)
Definition substr (s : str) (pos count : nat) : str := firstn count (skipn pos s).

(** The characters \t \n \r.  detail/serialize.hpp:51, 78. *)
Definition ch_tab : ascii := ascii_of_N 9.
(** detail/serialize.hpp:51, 78. *)
Definition ch_lf : ascii := ascii_of_N 10.
(** detail/serialize.hpp:51, 78. *)
Definition ch_cr : ascii := ascii_of_N 13.

(** whitespace_chars: detail/serialize.hpp:51. *)
Definition whitespace_chars : str := [" "%char; ch_tab; ch_lf; ch_cr].

(** trim(): detail/serialize.hpp:53-63.  (The npos case of find_last_not_of, in which
    [last - first + 1] wraps around to "the rest", cannot occur after line 57.) *)
Definition trim (s : str) : str :=
  match find_first_not_of s whitespace_chars with
  | None => []
  | Some first =>
      match find_last_not_of s whitespace_chars with
      | Some last => substr s first (last - first + 1)
      | None => skipn first s
      end
  end.

(* ------------------------------------------------------------------------ *)
(** ** Enums *)

(** What the metadata queries deliver for a type (metadata::name, description, values,
    value_names: see MetaModel.v); [None] is nullopt.  detail/serialize.hpp:70-71, 93-94, 212-213. *)
Record enum_source (T : Type) := mk_source {
  src_name : option str;
  src_description : option str;
  src_values : option (list T);
  src_names : option (list str)
}.
Arguments mk_source {T}.
Arguments src_name {T}.
Arguments src_description {T}.
Arguments src_values {T}.
Arguments src_names {T}.

(** description_or_name_or_empty(): detail/serialize.hpp:66-75. *)
Definition description_or_name_or_empty {T} (src : enum_source T) : str :=
  match src_description src with
  | Some d => d
  | None => match src_name src with Some n => n | None => [] end
  end.

(** enum_forbidden_chars: detail/serialize.hpp:78. *)
Definition enum_forbidden_chars : str :=
  ["+"%char; "|"%char; " "%char; ch_tab; ch_lf; ch_cr; ","%char; "["%char; "]"%char;
   "{"%char; "}"%char; "("%char; ")"%char; ":"%char; "/"%char; "\"%char].

(** enum_metadata: detail/serialize.hpp:81-87. *)
Record enum_metadata (T : Type) := mk_enum_md {
  md_description : str;
  md_values : list T;
  md_names : list str
}.
Arguments mk_enum_md {T}.
Arguments md_description {T}.
Arguments md_values {T}.
Arguments md_names {T}.

(** The loop checking the names: detail/serialize.hpp:97-101 (enums), 216-220 (flags). *)
Fixpoint check_names (forbidden : str) (names : list str) : outcome unit :=
  match names with
  | [] => Ok tt
  | n :: r =>
      do _ <- expects (match n with [] => false | _ => true end);
      do _ <- expects (match find_first_of n forbidden with None => true | Some _ => false end);
      check_names forbidden r
  end.

(** make_enum_metadata(): detail/serialize.hpp:89-107.  If values or names are not available
    the loop over nullopt does not compile; arrays of different extents do not fit the
    aggregate on line 106. *)
Definition make_enum_metadata {T} (src : enum_source T) : outcome (enum_metadata T) :=
  match src_values src, src_names src with
  | Some values, Some names =>
      if Nat.eqb (length values) (length names) then
        do _ <- check_names enum_forbidden_chars names;
        Ok (mk_enum_md (description_or_name_or_empty src) values names)
      else IllFormed
  | _, _ => IllFormed
  end.

(** static_enum_metadata<>::value: detail/serialize.hpp:109-113. *)
Definition static_enum_metadata {T} (src : enum_source T) : outcome (enum_metadata T) :=
  constexpr_init (make_enum_metadata src).

(** enum_to_string(): detail/serialize.hpp:115-127.  The loop over i walks the two arrays in
    parallel; reading names_[i] past its end would be [UB]. *)
Fixpoint enum_to_string_loop (value : Z) (values : list Z) (names : list str) : outcome str :=
  match values with
  | [] => Contract
  | v :: vs =>
      if Z.eqb value v then match names with n :: _ => Ok n | [] => UB end
      else match names with _ :: ns => enum_to_string_loop value vs ns | [] => enum_to_string_loop value vs [] end
  end.
(** detail/serialize.hpp:115-127. *)
Definition enum_to_string (value : Z) (md : enum_metadata Z) : outcome str :=
  enum_to_string_loop value (md_values md) (md_names md).

(** try_enum_from_string(): detail/serialize.hpp:128-141.  Returns the return code and the
    new content of the output parameter. *)
Fixpoint try_enum_from_string_loop (value : Z) (s : str) (values : list Z) (names : list str) : Z * Z :=
  match values, names with
  | v :: vs, n :: ns =>
      if str_eqb s n then (0%Z, v) else try_enum_from_string_loop value s vs ns
  | _, _ => ((-1)%Z, value)
  end.
(** detail/serialize.hpp:128-141. *)
Definition try_enum_from_string (value : Z) (s : str) (md : enum_metadata Z) : Z * Z :=
  try_enum_from_string_loop value s (md_values md) (md_names md).

(** The loop listing the names: detail/serialize.hpp:160-171. *)
Fixpoint list_names (msg : str) (first : bool) (names : list str) : str :=
  match names with
  | [] => msg
  | n :: r =>
      let msg := if first then msg else msg ++ lit ", " in
      list_names (((msg ++ lit "'") ++ n) ++ lit "'") false r
  end.

(** enum_from_string_error(): detail/serialize.hpp:142-174. *)
Definition enum_from_string_error {T} (s : str) (md : enum_metadata T) (flags : bool) : str :=
  let msg : str := [] in
  let msg := match md_description md with [] => msg | d => (msg ++ d) ++ lit ": " end in
  let msg := msg ++ lit "unknown value '" in
  let msg := msg ++ s in
  let msg := msg ++ lit "'; supported values: " in
  let msg := if flags then msg ++ lit "a '+'-delimited subset of " else msg in
  let msg := msg ++ lit "{ " in
  let msg := list_names msg true (md_names md) in
  msg ++ lit " }".

(** enum_from_string(): detail/serialize.hpp:175-185. *)
Definition enum_from_string (s : str) (md : enum_metadata Z) : outcome Z :=
  let '(rc, result) := try_enum_from_string 0%Z (trim s) md in
  if negb (Z.eqb rc 0) then Throw (RuntimeError (enum_from_string_error s md false))
  else Ok result.

(** makeshift::enum_to_string(): string.hpp:25-30. *)
Definition api_enum_to_string (src : enum_source Z) (value : Z) : outcome str :=
  do md <- static_enum_metadata src; enum_to_string value md.

(** makeshift::parse_enum(): string.hpp:32-37. *)
Definition api_parse_enum (src : enum_source Z) (s : str) : outcome Z :=
  do md <- static_enum_metadata src; enum_from_string s md.

(* ------------------------------------------------------------------------ *)
(** ** Flags *)

(** flags_forbidden_chars: detail/serialize.hpp:188. *)
Definition flags_forbidden_chars : str :=
  [","%char; "["%char; "]"%char; "{"%char; "}"%char; "("%char; ")"%char; ":"%char; "/"%char; "\"%char].

(** is_power_of_2(): detail/serialize.hpp:191-196. *)
Definition is_power_of_2 (value : N) : bool :=
  N.ltb 0 value && N.eqb (N.land value (value - 1)) 0.

(** Complement of a [w]-bit pattern (operator ~ of the bitmask type).  detail/serialize.hpp:275. *)
Definition bnot (w : N) (x : N) : N := N.lxor x (N.ones w).

(** flags_metadata: detail/serialize.hpp:198-204. *)
Record flags_metadata := mk_flags_md {
  fmd_base : enum_metadata N;
  fmd_all_defined_flags : N;
  fmd_none_name : str;
  fmd_num_individual_names : nat
}.

(** Loop variables of make_flags_metadata(): detail/serialize.hpp:223-228. *)
Record mfm_state := mk_mfm {
  mfm_flags : list N;
  mfm_names : list str;
  mfm_j : nat;
  mfm_all : N;
  mfm_indiv : N;
  mfm_none : str
}.

(** First loop: detail/serialize.hpp:229-245. *)
Fixpoint mfm_loop1 (st : mfm_state) (entries : list (N * str)) : outcome mfm_state :=
  match entries with
  | [] => Ok st
  | (flag, name) :: r =>
      let all := N.lor (mfm_all st) flag in
      if is_power_of_2 flag then
        do fl <- arr_set (mfm_flags st) (mfm_j st) flag;
        do nm <- arr_set (mfm_names st) (mfm_j st) name;
        mfm_loop1 (mk_mfm fl nm (mfm_j st + 1) all (N.lor (mfm_indiv st) flag) (mfm_none st)) r
      else if N.eqb flag 0 && match mfm_none st with [] => true | _ => false end then
        mfm_loop1 (mk_mfm (mfm_flags st) (mfm_names st) (mfm_j st) all (mfm_indiv st) name) r
      else
        mfm_loop1 (mk_mfm (mfm_flags st) (mfm_names st) (mfm_j st) all (mfm_indiv st) (mfm_none st)) r
  end.

(** Second loop: detail/serialize.hpp:248-258. *)
Fixpoint mfm_loop2 (st : mfm_state) (entries : list (N * str)) : outcome mfm_state :=
  match entries with
  | [] => Ok st
  | (flag, name) :: r =>
      if negb (is_power_of_2 flag) then
        do fl <- arr_set (mfm_flags st) (mfm_j st) flag;
        do nm <- arr_set (mfm_names st) (mfm_j st) name;
        mfm_loop2 (mk_mfm fl nm (mfm_j st + 1) (mfm_all st) (mfm_indiv st) (mfm_none st)) r
      else mfm_loop2 st r
  end.

(** make_flags_metadata(): detail/serialize.hpp:206-263. *)
Definition make_flags_metadata (src : enum_source N) : outcome flags_metadata :=
  match src_values src, src_names src with
  | Some values, Some names =>
      if Nat.eqb (length values) (length names) then
        do _ <- check_names flags_forbidden_chars names;
        let n := length values in
        let st0 := mk_mfm (repeat 0%N n) (repeat ([] : str) n) 0 0%N 0%N [] in
        let entries := combine values names in
        do st1 <- mfm_loop1 st0 entries;
        do _ <- expects (N.eqb (mfm_all st1) (mfm_indiv st1));
        let num := mfm_j st1 in
        do st2 <- mfm_loop2 st1 entries;
        Ok (mk_flags_md
              (mk_enum_md (description_or_name_or_empty src) (mfm_flags st2) (mfm_names st2))
              (mfm_all st2) (mfm_none st2) num)
      else IllFormed
  | _, _ => IllFormed
  end.

(** static_flags_metadata<>::value: detail/serialize.hpp:265-269. *)
Definition static_flags_metadata (src : enum_source N) : outcome flags_metadata :=
  constexpr_init (make_flags_metadata src).

(** The loop of flags_to_string(): detail/serialize.hpp:283-295; [k] iterations left. *)
Fixpoint flags_to_string_loop (flags : N) (values : list N) (names : list str)
    (i k : nat) (result : str) (flagsSet : N) : outcome str :=
  match k with
  | O => Ok result
  | S k' =>
      do flag <- arr_get values i;
      if negb (N.eqb (N.land flags flag) 0) && N.eqb (N.land flagsSet flag) 0 then
        let result := match result with [] => result | _ => result ++ lit "+" end in
        do name <- arr_get names i;
        flags_to_string_loop flags values names (i + 1) k' (result ++ name) (N.lor flagsSet flag)
      else flags_to_string_loop flags values names (i + 1) k' result flagsSet
  end.

(** flags_to_string(): detail/serialize.hpp:271-297, for a [w]-bit underlying type. *)
Definition flags_to_string (w : N) (flags : N) (md : flags_metadata) : outcome str :=
  do _ <- expects (N.eqb (N.land flags (bnot w (fmd_all_defined_flags md))) 0);
  if N.eqb flags 0 then Ok (fmd_none_name md)
  else flags_to_string_loop flags (md_values (fmd_base md)) (md_names (fmd_base md))
         0 (fmd_num_individual_names md) [] 0%N.

(** The lookup loop of flags_from_string(): detail/serialize.hpp:346-355. *)
Fixpoint lookup_flag (token : str) (values : list N) (names : list str) : option N :=
  match values, names with
  | v :: vs, n :: ns => if str_eqb token n then Some v else lookup_flag token vs ns
  | _, _ => None
  end.

(** flags_from_string(): detail/serialize.hpp:326-367.  [fuel] bounds the iterations of the
    while loop.  Returns the return code and the new content of the output parameter. *)
Fixpoint flags_from_string_loop (fuel : nat) (value result : N) (s : str)
    (md : enum_metadata N) (raise : bool) : outcome (Z * N) :=
  match s with
  | [] => Ok (0%Z, result)
  | _ =>
      match fuel with
      | O => OutOfFuel
      | S fuel' =>
          let process token rest :=
            match lookup_flag token (md_values md) (md_names md) with
            | Some v => flags_from_string_loop fuel' value (N.lor result v) rest md raise
            | None => if raise then Throw (RuntimeError (enum_from_string_error token md true))
                      else Ok ((-1)%Z, value)
            end in
          match find_first_of s (lit "+|") with
          | Some pos => process (trim (substr s 0 pos)) (skipn (pos + 1) s)
          | None => match trim s with
                    | [] => Ok (0%Z, result)
                    | token => process token []
                    end
          end
      end
  end.
(** detail/serialize.hpp:326-367. *)
Definition flags_from_string (value : N) (s : str) (md : enum_metadata N) (raise : bool)
    : outcome (Z * N) :=
  flags_from_string_loop (length s) value 0%N s md raise.

(** makeshift::flags_to_string(): string.hpp:40-45. *)
Definition api_flags_to_string (w : N) (src : enum_source N) (value : N) : outcome str :=
  do md <- static_flags_metadata src; flags_to_string w value md.

(** makeshift::parse_flags(): string.hpp:47-54.  [indet] is the indeterminate initial value of
    the local variable [result]. *)
Definition api_parse_flags (indet : N) (src : enum_source N) (s : str) : outcome N :=
  do md <- static_flags_metadata src;
  do ' (_, result) <- flags_from_string indet s (fmd_base md) true;
  Ok result.
