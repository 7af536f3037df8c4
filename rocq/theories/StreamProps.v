(** Properties C09-C11, C65: stream manipulators. *)

From Coq Require Import String Ascii ZArith NArith Arith Bool List Lia.
From Verif Require Import Base SerializeModel SerializeSpec StreamModel StreamSpec SerializeProps StreamProofs StreamFlagsProofs.
Import ListNotations.

(** C09.  The first part: every text has a decomposition into blanks, token and rest.  The second: what
    happens on a good stream, for every such decomposition.  The third: a stream that is not good is left
    alone apart from failbit, if std::ws conforms to the standard (it skips whitespace otherwise).  [at_end rest] is the
    new eofbit. *)
Theorem C09_extract_enum_exact : forall (src : enum_source Z) vs ns,
  aligned (src_values src) (src_names src) vs ns ->
  Forall (name_ok enum_reserved) ns ->
  forall sentry b v,
    (exists l tok rest, one_token enum_reserved b l tok rest) /\
    (forall l tok rest, one_token enum_reserved b l tok rest ->
      (forall x, value_of_name vs ns tok x ->
         extract_enum sentry src (mk_istream b false false) v = Ok (mk_istream rest (at_end rest) false, x)) /\
      (~ In tok ns ->
         extract_enum sentry src (mk_istream b false false) v = Ok (mk_istream rest (at_end rest) true, v))) /\
    (forall e f, e || f = true -> forall l rest, spaces_then b l rest ->
       extract_enum sentry src (mk_istream b e f) v =
       Ok (if sentry then mk_istream b e true else mk_istream rest (e || at_end rest) true, v)).
Proof. exact extract_enum_exact. Qed.
Print Assumptions C09_extract_enum_exact.

Example C09_example :
  extract_enum true ex_color (mk_istream (lit "  green,red") false false) 42 =
    Ok (mk_istream (lit ",red") false false, 1%Z) /\
  extract_enum true ex_color (mk_istream (lit " greenred") false false) 42 =
    Ok (mk_istream [] true true, 42%Z) /\
  one_token enum_reserved (lit "  green,red") (lit "  ") (lit "green") (lit ",red").
Proof.
  split; [reflexivity|]. split; [reflexivity|].
  split; [reflexivity|]. split; [repeat constructor; right; reflexivity|]. split.
  - intros c r E. injection E as <- _. unfold space_char. vm_compute. intuition congruence.
  - split.
    + pose proof ex_color_ok as H. rewrite Forall_forall in H.
      apply Forall_forall. intros c Hc. apply (H (lit "green")); simpl; auto.
    + intros c r E. injection E as <- _. left; simpl; auto 20.
Qed.

(** C10, full statement: as below, and extraction from a stream that is not good does not modify v.  The last
    part is false: v becomes zero. *)
Theorem C10_extract_flags_failed_stream_refuted :
  exists (src : enum_source N) vs ns v,
    aligned (src_values src) (src_names src) vs ns /\
    Forall (name_ok flags_reserved) ns /\ bits_covered vs /\ v <> 0%N /\
    forall sentry b, exists st, extract_flags sentry src (mk_istream b false true) v = Ok (st, 0%N).
Proof.
  exists ex_veg, ex_veg_vs, ex_veg_ns, 5%N.
  split; [exact ex_veg_aligned|]. split; [exact ex_veg_ok|]. split; [exact ex_veg_covered|].
  split; [discriminate|]. intros sentry b.
  destruct (extract_flags_exact ex_veg ex_veg_vs ex_veg_ns ex_veg_aligned ex_veg_ok ex_veg_covered)
    as [vs' [ns' [_ H]]].
  destruct (H sentry b 5%N) as [(l & tok & rest & H1 & H2 & H3 & _) [_ H4]]. eexists. apply (H4 false true eq_refl l (tok ++ rest)). split; auto.
Qed.
Print Assumptions C10_extract_flags_failed_stream_refuted.

Theorem C10_extract_flags_exact_partial : forall (src : enum_source N) vs ns,
  aligned (src_values src) (src_names src) vs ns ->
  Forall (name_ok flags_reserved) ns -> bits_covered vs ->
  exists vs' ns', reordered vs ns vs' ns' /\
    forall sentry b v,
    (exists l tok rest, one_token flags_reserved b l tok rest) /\
    (forall l tok rest, one_token flags_reserved b l tok rest ->
      (forall f, flags_text vs' ns' tok f ->
         extract_flags sentry src (mk_istream b false false) v =
         Ok (mk_istream rest (at_end rest) false, f)) /\
      ((~ exists f, flags_text vs' ns' tok f) ->
         extract_flags sentry src (mk_istream b false false) v =
         Ok (mk_istream rest (at_end rest) true, v))) /\
    (forall e f, e || f = true -> forall l rest, spaces_then b l rest ->
       extract_flags sentry src (mk_istream b e f) v =
       Ok (if sentry then mk_istream b e true else mk_istream rest (e || at_end rest) f, 0%N)).
Proof. exact extract_flags_exact. Qed.
Print Assumptions C10_extract_flags_exact_partial.

Example C10_example :
  extract_flags true ex_veg (mk_istream (lit " tomato | onion , x") false false) 42 =
    Ok (mk_istream (lit ", x") false false, 3%N) /\
  extract_flags true ex_veg (mk_istream (lit "tomato onion") false false) 42 =
    Ok (mk_istream [] true true, 42%N).
Proof. split; reflexivity. Qed.

(** C11: values separated by blanks are read back without further help... *)
Theorem C11_enum_sequences_read_back : forall (src : enum_source Z) vs ns,
  aligned (src_values src) (src_names src) vs ns ->
  Forall (name_ok enum_reserved) ns -> NoDup ns ->
  (forall n, In n ns -> ~ starts_with_space n) ->
  forall sentry skip v0 l last pre,
    Forall (fun p => In (fst p) vs) l -> In last vs ->
    Forall (fun p => if (skip : bool) then reserved_separator (snd p) else blank_separator (snd p)) l ->
    Forall space_char pre ->
    exists t st, write_enums src pre (l ++ [(last, [])]) = Ok (pre ++ t) /\
      read_enums sentry skip src v0 (mk_istream (pre ++ t) false false) (length l) = Ok (st, map fst l) /\
      extract_enum sentry src st v0 = Ok (mk_istream [] true false, last).
Proof. exact (fun src vs ns Ha Ho Hn Hs => read_back src vs ns Ha Ho Hn Hs). Qed.
Print Assumptions C11_enum_sequences_read_back.

Example C11_example :
  exists t, write_enums ex_color [] [(1%Z, lit ", "); (0%Z, lit "/"); ((-5)%Z, [])] = Ok t /\
    t = lit "green, red/blue" /\
    (do ' (st, vs) <- read_enums false true ex_color 9 (mk_istream t false false) 2;
     do ' (st, v) <- extract_enum false ex_color st 9;
     Ok (st, vs, v)) = Ok (mk_istream [] true false, [1%Z; 0%Z], (-5)%Z) /\
    (forall n, In n [lit "red"; lit "green"; lit "blue"] -> ~ starts_with_space n).
Proof.
  eexists; split; [reflexivity|]. split; [reflexivity|]. split; [reflexivity|].
  intros n Hn [c [r [E Hc]]]. simpl in Hn.
  destruct Hn as [<-|[<-|[<-|[]]]]; injection E as <- _; revert Hc; unfold space_char; vm_compute; intuition congruence.
Qed.

(** The condition on the first character of the names is needed: names may start with a vertical tab (accepted by
    the library), which std::ws skips. *)
Theorem C11_leading_vertical_tab_refuted :
  exists (src : enum_source Z) vs ns v t,
    aligned (src_values src) (src_names src) vs ns /\ Forall (name_ok enum_reserved) ns /\ NoDup ns /\ In v vs /\
    insert_enum src [] v = Ok t /\
    forall sentry v0, extract_enum sentry src (mk_istream t false false) v0 = Ok (mk_istream [] true true, v0).
Proof.
  exists (mk_source None None (Some [7%Z]) (Some [ascii_of_N 11 :: lit "a"])), [7%Z], [ascii_of_N 11 :: lit "a"],
    7%Z, (ascii_of_N 11 :: lit "a").
  split; [repeat split|]. split; [|split; [|split; [|split]]].
  - constructor; [|constructor]. split; [discriminate|]. unfold enum_reserved. simpl. intros c Hc.
    repeat destruct Hc as [Hc|Hc]; subst; try contradiction; vm_compute; intuition discriminate.
  - repeat constructor; simpl; auto.
  - simpl; auto.
  - reflexivity.
  - intros [|] v0; reflexivity.
Qed.
Print Assumptions C11_leading_vertical_tab_refuted.

(** C65: combinations of flags followed by separators are read back. *)
Theorem C65_flags_sequences_read_back : forall (w : N) (src : enum_source N) vs ns,
  aligned (src_values src) (src_names src) vs ns ->
  Forall (name_ok flags_reserved) ns -> bits_covered vs -> NoDup ns ->
  Forall (fun n => bare n /\ forall c, In c n -> ~ delim c) ns ->
  (forall n, In n ns -> ~ starts_with_space n) ->
  let writable f := (f < 2 ^ w)%N /\ forall k, N.testbit f k = true -> bit_defined vs k in
  forall sentry v0 l last pre,
    Forall (fun p => writable (fst p)) l -> writable last ->
    Forall (fun p => flags_separator (snd p)) l -> Forall space_char pre ->
    exists t st, write_flags w src pre (l ++ [(last, [])]) = Ok (pre ++ t) /\
      read_flags sentry src v0 (mk_istream (pre ++ t) false false) (length l) = Ok (st, map fst l) /\
      extract_flags sentry src st v0 = Ok (mk_istream [] true false, last).
Proof.
  intros w src vs ns Ha Ho Hc Hn Hcl Hs writable sentry v0 l last pre Hl Hlast Hsep Hpre.
  destruct (read_flags_back w src vs ns Ha Ho Hc Hn Hcl Hs sentry v0 l last pre Hl Hlast Hsep Hpre) as (t & st & W & R & X).
  exists t, st. split; [apply W|]. split; assumption.
Qed.
Print Assumptions C65_flags_sequences_read_back.

Example C65_example :
  exists t, write_flags 8 ex_veg [] [(5%N, lit ", "); (0%N, lit "/"); (3%N, [])] = Ok t /\
    t = lit "tomato+eggplant, nothing/tomato+onion" /\
    (do ' (st, vs) <- read_flags false ex_veg 9 (mk_istream t false false) 2;
     do ' (st, v) <- extract_flags false ex_veg st 9;
     Ok (st, vs, v)) = Ok (mk_istream [] true false, [5%N; 0%N], 3%N) /\
    aligned (src_values ex_veg) (src_names ex_veg) ex_veg_vs ex_veg_ns /\
    Forall (name_ok flags_reserved) ex_veg_ns /\ bits_covered ex_veg_vs /\
    Forall (fun n => bare n /\ forall c, In c n -> ~ delim c) ex_veg_ns /\
    (forall n, In n ex_veg_ns -> ~ starts_with_space n).
Proof.
  exists (lit "tomato+eggplant, nothing/tomato+onion"). split; [vm_compute; reflexivity|]. split; [reflexivity|]. split; [vm_compute; reflexivity|].
  split; [exact ex_veg_aligned|]. split; [exact ex_veg_ok|]. split; [exact ex_veg_covered|]. split; [exact ex_veg_clean|].
  intros n Hn [c [r [E Hc]]]. simpl in Hn.
  destruct Hn as [<-|[<-|[<-|[<-|[<-|[]]]]]]; injection E as <- _; revert Hc; unfold space_char; vm_compute; intuition congruence.
Qed.

(** Blanks do not separate flags, unlike enumerators (names of flags may contain blanks): two combinations with a
    blank between them, written with as_flags, cannot be read back. *)
Theorem C65_blank_separator_refuted : exists (src : enum_source N) vs ns v1 v2 t,
  aligned (src_values src) (src_names src) vs ns /\ Forall (name_ok flags_reserved) ns /\ bits_covered vs /\
  write_flags 8 src [] [(v1, lit " "); (v2, [])] = Ok t /\
  forall sentry v0, extract_flags sentry src (mk_istream t false false) v0 = Ok (mk_istream [] true true, v0).
Proof.
  exists ex_veg, ex_veg_vs, ex_veg_ns, 1%N, 2%N, (lit "tomato onion"). split; [exact ex_veg_aligned|]. split; [exact ex_veg_ok|].
  split; [exact ex_veg_covered|]. split; [vm_compute; reflexivity|]. intros [|] v0; vm_compute; reflexivity.
Qed.
Print Assumptions C65_blank_separator_refuted.
