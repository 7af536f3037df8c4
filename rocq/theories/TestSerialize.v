(** The library's own tests of enum and flags serialization, /repo/test/test-serialize.cpp, replayed on the model: every CHECK and
    REQUIRE.  They test the model, not the code; nothing is proved here beyond these cases. *)

From Coq Require Import String Ascii ZArith NArith Bool List.
From Verif Require Import Base SerializeModel StreamModel.
Import ListNotations.

Local Ltac vmr := intros; vm_compute; reflexivity.

(** enum class Color, its reflect(): test-serialize.cpp:25-38. *)
Definition color : enum_source Z :=
  mk_source (Some (lit "Color")) (Some (lit "color")) (Some [1; 2]%Z) (Some [lit "red"; lit "green"]).

(** TEST_CASE "as_enum()": test-serialize.cpp:40-65.  [sentry]: see ws(). *)
Example as_enum_read : forall sentry,
  extract_enum sentry color (mk_istream (lit "  green , ") false false) 0 = Ok (mk_istream (lit " , ") false false, 2%Z) /\
  is_buf (get1 (mk_istream (lit " , ") false false)) = lit ", " /\
  exists st, extract_enum sentry color (mk_istream (lit "  bogus+ ") false false) 2 = Ok (st, 2%Z) /\ is_good st = false.
Proof. intros [|]; (split; [vmr|split; [vmr|eexists; split; vmr]]). Qed.
Example as_enum_write : insert_enum color [] 2 = Ok (lit "green").
Proof. vmr. Qed.

(** TEST_CASE "parse_enum()", "enum_to_string()": test-serialize.cpp:67-94. *)
Example parse_enum_pass : api_parse_enum color (lit " red  ") = Ok 1%Z /\ api_parse_enum color (lit "  green ") = Ok 2%Z.
Proof. split; vmr. Qed.
Example parse_enum_fail : Forall (fun s => exists e, api_parse_enum color s = Throw (RuntimeError e))
  [lit "bogus"; lit " +green"; lit "green+"].
Proof. repeat apply Forall_cons; try apply Forall_nil; (intros; eexists; vmr). Qed.
Example parse_enum_message : api_parse_enum color (lit "bogus") =
  Throw (RuntimeError (lit "color: unknown value 'bogus'; supported values: { 'red', 'green' }")).
Proof. vmr. Qed.
Example enum_to_string_test :
  api_enum_to_string color 1 = Ok (lit "red") /\ api_enum_to_string color 2 = Ok (lit "green") /\ api_enum_to_string color 0 = Contract.
Proof. repeat split; vmr. Qed.

(** enum class Vegetables, its reflect(): test-serialize.cpp:97-120; the underlying type is int: 32 bits. *)
Definition vegetables : enum_source N :=
  mk_source (Some (lit "Vegetables")) None (Some [0; 3; 1; 2; 4]%N)
    (Some [lit "none"; lit "tomato_onion"; lit "tomato"; lit "onion"; lit "eggplant"]).

(** TEST_CASE "as_flags()": test-serialize.cpp:122-174: text, next character if any, value. *)
Example as_flags_read : Forall (fun '(str, suffix, flags) => forall sentry,
    exists st, extract_flags sentry vegetables (mk_istream str false false) 8 = Ok (st, flags) /\ is_fail st = false /\
      forall c, suffix = Some c -> exists rest, is_buf st = c :: rest)
  [(lit " ", None, 0%N); (lit "none ,", Some ","%char, 0%N); (lit " ]", Some "]"%char, 0%N); (lit "none )", Some ")"%char, 0%N);
   (lit " tomato| onion ", None, 3%N); (lit " tomato +onion ", None, 3%N); (lit " tomato_onion] ", Some "]"%char, 3%N);
   (lit " eggplant ", None, 4%N)].
Proof.
  repeat apply Forall_cons; try apply Forall_nil;
    (intros [|]; eexists; (split; [vmr|]); (split; [vmr|]); intros c E; try discriminate E; injection E as <-; eexists; vmr).
Qed.
Example as_flags_read_fail : Forall (fun str => forall sentry,
    exists st, extract_flags sentry vegetables (mk_istream str false false) 8 = Ok (st, 8%N) /\ is_fail st = true)
  [lit "x]"; lit "x"; lit "tomato+x"; lit "eggplant|x"].
Proof. repeat apply Forall_cons; try apply Forall_nil; (intros [|]; eexists; split; vmr). Qed.
Example as_flags_write : Forall (fun '(flags, str) => insert_flags 32 vegetables [] flags = Ok str)
  [(0%N, lit "none"); (4%N, lit "eggplant"); (3%N, lit "tomato+onion"); (5%N, lit "tomato+eggplant")].
Proof. repeat apply Forall_cons; try apply Forall_nil; vmr. Qed.

(** TEST_CASE "parse_flags()", "flags_to_string()": test-serialize.cpp:176-222. *)
Example parse_flags_pass : Forall (fun '(str, flags) => forall indet, api_parse_flags indet vegetables str = Ok flags)
  [(lit " ", 0%N); (lit "none ", 0%N); (lit " tomato| onion", 3%N); (lit " tomato +onion ", 3%N); (lit " tomato_onion ", 3%N);
   (lit " eggplant ", 4%N)].
Proof. repeat apply Forall_cons; try apply Forall_nil; vmr. Qed.
Example parse_flags_fail : Forall (fun str => forall indet, exists e, api_parse_flags indet vegetables str = Throw e)
  [lit "[none"; lit "x]"; lit "x"; lit "tomato+x"; lit "eggplant|x"; lit "eggplant]"; lit "eggplant ]"].
Proof. repeat apply Forall_cons; try apply Forall_nil; (intros; eexists; vmr). Qed.
Example parse_flags_message : forall indet, api_parse_flags indet vegetables (lit "bogus") =
  Throw (RuntimeError (lit "Vegetables: unknown value 'bogus'; supported values: a '+'-delimited subset of { 'tomato', 'onion', 'eggplant', 'none', 'tomato_onion' }")).
Proof. vmr. Qed.
Example flags_to_string_test : Forall (fun '(flags, str) => api_flags_to_string 32 vegetables flags = Ok str)
  [(0%N, lit "none"); (4%N, lit "eggplant"); (3%N, lit "tomato+onion"); (5%N, lit "tomato+eggplant")] /\
  api_flags_to_string 32 vegetables 12 = Contract.
Proof. split; [repeat apply Forall_cons; try apply Forall_nil; vmr|vmr]. Qed.
