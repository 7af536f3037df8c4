(** Specification of the string conversions, independent of the model's helpers: only
    characters, list concatenation, positions and bits are used. *)

From Coq Require Import String Ascii ZArith NArith Arith Bool List.
From Verif Require Import Base.
Import ListNotations.

(** The four blank characters: space, tab, line feed, carriage return. *)
Definition blank_char (c : ascii) : Prop :=
  N_of_ascii c = 32%N \/ N_of_ascii c = 9%N \/ N_of_ascii c = 10%N \/ N_of_ascii c = 13%N.
Definition blank (s : str) : Prop := Forall blank_char s.

(** [t] neither starts nor ends with a blank. *)
Definition bare (t : str) : Prop :=
  (forall c t', t = c :: t' -> ~ blank_char c) /\
  (forall c t', t = t' ++ [c] -> ~ blank_char c).

(** [s] is [t] surrounded by blanks, and [t] is as short as possible. *)
Definition padded (s t : str) : Prop :=
  exists l r, s = l ++ t ++ r /\ blank l /\ blank r /\ bare t.

(** The reserved characters of enum names and of flag names. *)
Definition enum_reserved (c : ascii) : Prop :=
  In c (list_ascii_of_string "+| ,[]{}():/\") \/
  N_of_ascii c = 9%N \/ N_of_ascii c = 10%N \/ N_of_ascii c = 13%N.
Definition flags_reserved (c : ascii) : Prop :=
  In c (list_ascii_of_string ",[]{}():/\").

Definition name_ok (reserved : ascii -> Prop) (n : str) : Prop :=
  n <> [] /\ forall c, In c n -> ~ reserved c.

(** A usable source: values and names are available, aligned, and all names are acceptable. *)
Definition aligned {T} (vo : option (list T)) (no : option (list str)) (vs : list T) (ns : list str) : Prop :=
  vo = Some vs /\ no = Some ns /\ length vs = length ns.

(** [k] is the first position of [a] in [l]. *)
Definition first_pos {A} (l : list A) (a : A) (k : nat) : Prop :=
  nth_error l k = Some a /\ forall j, j < k -> nth_error l j <> Some a.

(** The value listed first under name [n] is [v]. *)
Definition value_of_name {T} (vs : list T) (ns : list str) (n : str) (v : T) : Prop :=
  exists k, first_pos ns n k /\ nth_error vs k = Some v.

(** The name listed first for value [v] is [n]. *)
Definition name_of_value {T} (vs : list T) (ns : list str) (v : T) (n : str) : Prop :=
  exists k, first_pos vs v k /\ nth_error ns k = Some n.

(** [sep]-separated concatenation. *)
Fixpoint join (sep : str) (l : list str) : str :=
  match l with
  | [] => []
  | [a] => a
  | a :: r => a ++ sep ++ join sep r
  end.

Definition quoted (n : str) : str := lit "'" ++ n ++ lit "'".

(** The text of the error message. *)
Definition error_text (title : option str) (what : str) (kind : str) (ns : list str) : str :=
  match title with
  | None => []
  | Some [] => []
  | Some t => t ++ lit ": "
  end ++ lit "unknown value '" ++ what ++ lit "'; supported values: " ++ kind ++
  lit "{ " ++ join (lit ", ") (map quoted ns) ++ lit " }".

(** What is shown before the colon: the description, else the name, else nothing. *)
Definition title_of (name desc : option str) : option str :=
  match desc with Some d => Some d | None => name end.

(* ------------------------------------------------------------------------ *)
(** ** Flags *)

(** A value with exactly one bit set. *)
Definition single_bit (v : N) : Prop := exists k, v = N.pow 2 k.

Definition is_single (v : N) : bool := N.eqb v (N.pow 2 (N.log2 v)) && negb (N.eqb v 0).

(** Bit [k] is provided by some listed flag / by some listed single-bit flag. *)
Definition bit_defined (vs : list N) (k : N) : Prop :=
  exists v, In v vs /\ N.testbit v k = true.
Definition bit_individually_defined (vs : list N) (k : N) : Prop :=
  In (N.pow 2 k) vs.

(** The order in which the library keeps flags: all single-bit flags in declaration order,
    then all other entries in declaration order. *)
Definition reordered (vs : list N) (ns : list str) (vs' : list N) (ns' : list str) : Prop :=
  length vs' = length vs /\ length ns' = length ns /\
  combine vs' ns' = filter (fun e => is_single (fst e)) (combine vs ns) ++
                    filter (fun e => negb (is_single (fst e))) (combine vs ns).

(** Every bit of every listed flag is provided by some listed single-bit flag. *)
Definition bits_covered (vs : list N) : Prop :=
  forall k, bit_defined vs k -> bit_individually_defined vs k.

(** The name shown for the empty combination. *)
Definition name_of_none (vs : list N) (ns : list str) (n : str) : Prop :=
  name_of_value vs ns 0%N n \/ (~ In 0%N vs /\ n = []).

(** The delimiters of a flags text. *)
Definition delim (c : ascii) : Prop := c = "+"%char \/ c = "|"%char.

(** [splits s ps]: [ps] are the pieces of [s] between delimiters. *)
Inductive splits : str -> list str -> Prop :=
| splits_last : forall p, (forall c, In c p -> ~ delim c) -> splits p [p]
| splits_more : forall p d s ps,
    (forall c, In c p -> ~ delim c) -> delim d -> splits s ps ->
    splits (p ++ d :: s) (p :: ps).

(** A blank last piece does not count. *)
Definition effective (ps eff : list str) : Prop :=
  exists lastp, ps = removelast ps ++ [lastp] /\
    ((blank lastp /\ eff = removelast ps) \/ (~ blank lastp /\ eff = ps)).

(** Piece [p] denotes flag value [v]. *)
Definition piece_value (vs : list N) (ns : list str) (p : str) (v : N) : Prop :=
  exists t, padded p t /\ value_of_name vs ns t v.

(** Text [s] denotes the combination [f]. *)
Definition flags_text (vs : list N) (ns : list str) (s : str) (f : N) : Prop :=
  exists ps eff fs, splits s ps /\ effective ps eff /\
    Forall2 (piece_value vs ns) eff fs /\
    (forall k, N.testbit f k = true <-> exists v, In v fs /\ N.testbit v k = true).

(** The first piece of [s] that is no listed name is, without blanks, [t]. *)
Definition offending (ns : list str) (s : str) (t : str) : Prop :=
  exists ps eff l p r, splits s ps /\ effective ps eff /\ eff = l ++ p :: r /\
    padded p t /\ ~ In t ns /\
    Forall (fun q => exists u, padded q u /\ In u ns) l.

(** Canonical text of a combination [f]: positions [is] of the chosen entries in increasing order. *)
Definition chosen (vs : list N) (f : N) (i : nat) : Prop :=
  exists k, nth_error vs i = Some (N.pow 2 k) /\ N.testbit f k = true /\
    forall j, j < i -> nth_error vs j <> Some (N.pow 2 k).

Fixpoint increasing (l : list nat) : Prop :=
  match l with
  | [] => True
  | a :: r => (forall b, In b r -> a < b) /\ increasing r
  end.

Definition canonical_text (vs : list N) (ns : list str) (f : N) (s : str) : Prop :=
  exists (is : list nat) (names : list str),
    increasing is /\
    (forall i, In i is <-> chosen vs f i) /\
    Forall2 (fun i n => nth_error ns i = Some n) is names /\
    s = join (lit "+") names.
