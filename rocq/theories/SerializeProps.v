(** Properties C01-C08: string conversions of enums and flags. *)

From Coq Require Import String Ascii ZArith NArith Arith Bool List Lia.
From Verif Require Import Base SerializeModel SerializeSpec SerializeProofs SerializeFlagsProofs FlagsPairsProofs.
Import ListNotations.

(** A concrete enumeration used in the examples. *)
Definition ex_color : enum_source Z :=
  mk_source (Some (lit "Color")) (Some (lit "the color")) (Some [0%Z; 1%Z; (-5)%Z])
            (Some [lit "red"; lit "green"; lit "blue"]).

Lemma ex_color_aligned :
  aligned (src_values ex_color) (src_names ex_color) [0%Z; 1%Z; (-5)%Z] [lit "red"; lit "green"; lit "blue"].
Proof. repeat split. Qed.

Ltac solve_name_ok :=
  repeat constructor; try discriminate;
  unfold enum_reserved, flags_reserved; simpl; intros;
  repeat match goal with H : _ \/ _ |- _ => destruct H end; subst; simpl; intuition discriminate.

Ltac solve_blank :=
  unfold blank; repeat (apply Forall_cons || apply Forall_nil); unfold blank_char; vm_compute; tauto.

Lemma ex_color_ok : Forall (name_ok enum_reserved) [lit "red"; lit "green"; lit "blue"].
Proof. solve_name_ok. Qed.

(** C01. *)
Theorem C01_enum_round_trip : forall (src : enum_source Z) vs ns,
  aligned (src_values src) (src_names src) vs ns ->
  Forall (name_ok enum_reserved) ns -> NoDup ns ->
  forall v pre post, In v vs -> blank pre -> blank post ->
  exists s, api_enum_to_string src v = Ok s /\ api_parse_enum src (pre ++ s ++ post) = Ok v.
Proof. exact (fun src vs ns Ha Ho Hn => enum_round_trip src vs ns Ha Ho Hn). Qed.
Print Assumptions C01_enum_round_trip.

Example C01_example : exists s, api_enum_to_string ex_color (-5) = Ok s /\
  api_parse_enum ex_color (lit "  " ++ s ++ [ch_tab]) = Ok (-5)%Z.
Proof.
  apply (C01_enum_round_trip _ _ _ ex_color_aligned ex_color_ok).
  - repeat constructor; simpl; intuition discriminate.
  - simpl; auto.
  - solve_blank.
  - solve_blank.
Qed.

(** C02. *)
Theorem C02_parse_enum_exact : forall (src : enum_source Z) vs ns,
  aligned (src_values src) (src_names src) vs ns ->
  Forall (name_ok enum_reserved) ns ->
  forall s,
    (forall v, api_parse_enum src s = Ok v <-> exists t, padded s t /\ value_of_name vs ns t v) /\
    ((exists v, api_parse_enum src s = Ok v) <-> exists t, padded s t /\ In t ns) /\
    (~ (exists t, padded s t /\ In t ns) ->
     api_parse_enum src s =
     Throw (RuntimeError (error_text (title_of (src_name src) (src_description src)) s [] ns))).
Proof. exact parse_enum_exact. Qed.
Print Assumptions C02_parse_enum_exact.

Example C02_example :
  api_parse_enum ex_color (lit " green ") = Ok 1%Z /\
  api_parse_enum ex_color (lit " gr een") =
  Throw (RuntimeError (lit "the color: unknown value ' gr een'; supported values: { 'red', 'green', 'blue' }")).
Proof. split; reflexivity. Qed.

(** C03. *)
Theorem C03_enum_to_string_total_on_listed : forall (src : enum_source Z) vs ns,
  aligned (src_values src) (src_names src) vs ns ->
  Forall (name_ok enum_reserved) ns ->
  forall v,
    (forall s, api_enum_to_string src v = Ok s <-> name_of_value vs ns v s) /\
    (api_enum_to_string src v = Contract <-> ~ In v vs) /\
    (In v vs -> exists s, api_enum_to_string src v = Ok s).
Proof. exact enum_to_string_exact. Qed.
Print Assumptions C03_enum_to_string_total_on_listed.

Example C03_example :
  api_enum_to_string ex_color 1 = Ok (lit "green") /\ api_enum_to_string ex_color 7 = Contract.
Proof. split; reflexivity. Qed.

(** C04. *)
Theorem C04_char_sets_exact : forall chars,
  exists d, char_bitset_make chars = Ok d /\
    forall c, exists b, char_bitset_contains d c = Ok b /\ (b = true <-> In c chars).
Proof. exact char_bitset_correct. Qed.
Print Assumptions C04_char_sets_exact.

Theorem C04_reserved_characters : forall c,
  (In c enum_forbidden_chars <-> enum_reserved c) /\
  (In c flags_forbidden_chars <-> flags_reserved c).
Proof. exact (fun c => conj (enum_forbidden_iff c) (flags_forbidden_iff c)). Qed.
Print Assumptions C04_reserved_characters.

Theorem C04_enum_metadata_accepted_iff : forall (src : enum_source Z),
  ((exists md, static_enum_metadata src = Ok md) <->
   (exists vs ns, aligned (src_values src) (src_names src) vs ns /\ Forall (name_ok enum_reserved) ns)) /\
  (~ (exists md, static_enum_metadata src = Ok md) -> static_enum_metadata src = IllFormed).
Proof. exact (enum_metadata_acceptance Z). Qed.
Print Assumptions C04_enum_metadata_accepted_iff.

Example C04_example :
  (exists d, char_bitset_make (lit "+|" ++ [ascii_of_N 200]) = Ok d /\
     char_bitset_contains d (ascii_of_N 200) = Ok true /\
     char_bitset_contains d (ascii_of_N 72) = Ok false) /\
  (exists md, static_enum_metadata ex_color = Ok md) /\
  static_enum_metadata (mk_source None None (Some [1%Z]) (Some [lit "a/b"])) = IllFormed.
Proof.
  split; [|split].
  - eexists; split; [vm_compute; reflexivity|]. split; vm_compute; reflexivity.
  - eexists; vm_compute; reflexivity.
  - vm_compute; reflexivity.
Qed.

(* ------------------------------------------------------------------------ *)

(** A concrete flags type: tomato = 1, onion = 2, eggplant = 4, mixed = 3, nothing = 0. *)
Definition ex_veg_vs : list N := [3%N; 1%N; 0%N; 2%N; 4%N].
Definition ex_veg_ns : list str := [lit "mixed"; lit "tomato"; lit "nothing"; lit "onion"; lit "eggplant"].
Definition ex_veg : enum_source N := mk_source (Some (lit "Veg")) None (Some ex_veg_vs) (Some ex_veg_ns).

Lemma ex_veg_aligned : aligned (src_values ex_veg) (src_names ex_veg) ex_veg_vs ex_veg_ns.
Proof. repeat split. Qed.
Lemma ex_veg_ok : Forall (name_ok flags_reserved) ex_veg_ns.
Proof. solve_name_ok. Qed.
Lemma ex_veg_covered : bits_covered ex_veg_vs.
Proof.
  intros k [v [Hv Hb]]. unfold bit_individually_defined.
  destruct (N.le_gt_cases 3 k) as [Hk|Hk].
  - simpl in Hv. destruct Hv as [<-|[<-|[<-|[<-|[<-|[]]]]]];
      rewrite N.bits_above_log2 in Hb; try discriminate; simpl; lia.
  - assert (k = 0 \/ k = 1 \/ k = 2)%N as [->|[->| ->]] by lia; simpl; auto 10.
Qed.

(** C05, full statement: for all accepted, pairwise distinct names and all defined combinations [f],
    parsing the text of [f] gives [f].  It is false: names may contain delimiters.  Here the text of
    the flag "a+b" (value 4) is read back as the combination of "a" and "b" (value 3). *)
Theorem C05_flags_round_trip_refuted :
  exists (src : enum_source N) vs ns f s,
    aligned (src_values src) (src_names src) vs ns /\
    Forall (name_ok flags_reserved) ns /\ NoDup ns /\ bits_covered vs /\
    (f < 2 ^ 32)%N /\ (forall k, N.testbit f k = true -> bit_defined vs k) /\
    api_flags_to_string 32 src f = Ok s /\
    forall indet, api_parse_flags indet src s = Ok 3%N /\ f <> 3%N.
Proof.
  exists (mk_source None None (Some [1%N; 2%N; 4%N]) (Some [lit "a"; lit "b"; lit "a+b"])),
    [1%N; 2%N; 4%N], [lit "a"; lit "b"; lit "a+b"], 4%N, (lit "a+b").
  split; [repeat split|]. split; [solve_name_ok|].
  split; [repeat constructor; simpl; intuition discriminate|].
  split.
  { intros k [v [Hv Hb]]. unfold bit_individually_defined.
    destruct (N.le_gt_cases 3 k) as [Hk|Hk].
    - simpl in Hv. destruct Hv as [<-|[<-|[<-|[]]]];
        rewrite N.bits_above_log2 in Hb; try discriminate; simpl; lia.
    - assert (k = 0 \/ k = 1 \/ k = 2)%N as [->|[->| ->]] by lia; simpl; auto 10. }
  split; [reflexivity|]. split.
  { intros k Hk. exists 4%N; split; simpl; auto. }
  split; [reflexivity|]. intro indet; split; [reflexivity|discriminate].
Qed.
Print Assumptions C05_flags_round_trip_refuted.

(** What holds: names without '+', '|' and without outer blanks round-trip. *)
Theorem C05_flags_round_trip_partial : forall w (src : enum_source N) vs ns,
  aligned (src_values src) (src_names src) vs ns ->
  Forall (name_ok flags_reserved) ns -> bits_covered vs -> NoDup ns ->
  Forall (fun n => bare n /\ forall c, In c n -> ~ delim c) ns ->
  forall f indet, (f < 2 ^ w)%N -> (forall k, N.testbit f k = true -> bit_defined vs k) ->
  exists s, api_flags_to_string w src f = Ok s /\ api_parse_flags indet src s = Ok f.
Proof. exact flags_round_trip. Qed.
Print Assumptions C05_flags_round_trip_partial.

Lemma ex_veg_clean : Forall (fun n => bare n /\ forall c, In c n -> ~ delim c) ex_veg_ns.
Proof.
  repeat constructor.
  all: try (intros c t' E; unfold blank_char;
            (injection E as <- _ || idtac); vm_compute; intuition discriminate).
  all: try (intros c t' E; apply (f_equal (@rev _)) in E; rewrite rev_app_distr in E;
            vm_compute in E; injection E as <- _; unfold blank_char; vm_compute; intuition discriminate).
  all: unfold delim; simpl; intros c H; repeat destruct H as [H|H]; subst; try contradiction; intuition discriminate.
Qed.

Example C05_example : exists s, api_flags_to_string 8 ex_veg 5 = Ok s /\ api_parse_flags 77 ex_veg s = Ok 5%N.
Proof.
  apply (C05_flags_round_trip_partial 8 ex_veg ex_veg_vs ex_veg_ns); auto using ex_veg_aligned, ex_veg_ok, ex_veg_covered, ex_veg_clean.
  - repeat constructor; simpl; intuition discriminate.
  - reflexivity.
  - intros k Hk. destruct (N.le_gt_cases 3 k) as [H|H].
    + rewrite N.bits_above_log2 in Hk; [discriminate|simpl; lia].
    + assert (k = 0 \/ k = 1 \/ k = 2)%N as [->|[->| ->]] by lia; simpl in *; try discriminate.
      * exists 1%N; simpl; auto.
      * exists 4%N; simpl; auto 10.
Qed.

(** For all accepted names, whatever they contain: if the empty combination and all combinations of at most two flags are read
    back, all combinations are.  A check of the pairs, made once for a type, thus settles all 2^n combinations. *)
Theorem C05_pairs_suffice : forall w (src : enum_source N) vs ns,
  aligned (src_values src) (src_names src) vs ns ->
  Forall (name_ok flags_reserved) ns -> bits_covered vs ->
  forall indet,
  (exists s, api_flags_to_string w src 0 = Ok s /\ api_parse_flags indet src s = Ok 0%N) ->
  (forall j k, (j < w)%N -> (k < w)%N -> bit_defined vs j -> bit_defined vs k ->
     exists s, api_flags_to_string w src (N.lor (2 ^ j) (2 ^ k)) = Ok s /\ api_parse_flags indet src s = Ok (N.lor (2 ^ j) (2 ^ k))) ->
  forall f, (f < 2 ^ w)%N -> (forall k, N.testbit f k = true -> bit_defined vs k) ->
  exists s, api_flags_to_string w src f = Ok s /\ api_parse_flags indet src s = Ok f.
Proof. exact pairs_suffice. Qed.
Print Assumptions C05_pairs_suffice.

(** The single flags alone do not settle it: here each flag, and the empty combination, is read back, but the text of the two
    flags together is rejected. *)
Definition ex_twice (n : str) : enum_source N := mk_source None None (Some [1%N; 2%N; 1%N]) (Some [n; lit "b"; lit "a"]).

Lemma ex_twice_bits : forall k, bit_defined [1%N; 2%N; 1%N] k <-> (k = 0 \/ k = 1)%N.
Proof.
  intro k. split.
  - intros [v [Hv Hb]]. destruct (N.le_gt_cases 2 k) as [Hk|Hk]; [|lia].
    simpl in Hv. destruct Hv as [<-|[<-|[<-|[]]]]; rewrite N.bits_above_log2 in Hb; try discriminate; simpl; lia.
  - intros [->| ->]; [exists 1%N|exists 2%N]; simpl; auto.
Qed.
Lemma ex_twice_covered : bits_covered [1%N; 2%N; 1%N].
Proof. intros k Hk. apply ex_twice_bits in Hk as [->| ->]; unfold bit_individually_defined; simpl; auto. Qed.

Theorem C05_single_flags_suffice_refuted :
  exists (src : enum_source N) vs ns,
    aligned (src_values src) (src_names src) vs ns /\
    Forall (name_ok flags_reserved) ns /\ NoDup ns /\ bits_covered vs /\
    forall indet,
    (exists s, api_flags_to_string 8 src 0 = Ok s /\ api_parse_flags indet src s = Ok 0%N) /\
    (forall k, bit_defined vs k -> exists s, api_flags_to_string 8 src (2 ^ k) = Ok s /\ api_parse_flags indet src s = Ok (2 ^ k)%N) /\
    exists j k s, bit_defined vs j /\ bit_defined vs k /\ api_flags_to_string 8 src (N.lor (2 ^ j) (2 ^ k)) = Ok s /\
      forall f, api_parse_flags indet src s <> Ok f.
Proof.
  exists (ex_twice (lit "a+")), [1%N; 2%N; 1%N], [lit "a+"; lit "b"; lit "a"].
  split; [repeat split|]. split; [solve_name_ok|]. split; [repeat constructor; simpl; intuition discriminate|].
  split; [apply ex_twice_covered|]. intro indet. split; [|split].
  - eexists; split; vm_compute; reflexivity.
  - intros k Hk. apply ex_twice_bits in Hk as [->| ->]; eexists; split; vm_compute; reflexivity.
  - exists 0%N, 1%N. eexists. split; [apply ex_twice_bits; auto|]. split; [apply ex_twice_bits; auto|].
    split; [vm_compute; reflexivity|]. intros f H. vm_compute in H. discriminate.
Qed.
Print Assumptions C05_single_flags_suffice_refuted.

(** Names with delimiters can thus be fine: the first flag is written as "a|a". *)
Example C05_example_pairs : forall f, (f < 4)%N ->
  exists s, api_flags_to_string 8 (ex_twice (lit "a|a")) f = Ok s /\ api_parse_flags 0 (ex_twice (lit "a|a")) s = Ok f.
Proof.
  intros f Hf. apply (C05_pairs_suffice 8 _ [1%N; 2%N; 1%N] [lit "a|a"; lit "b"; lit "a"]).
  - repeat split.
  - solve_name_ok.
  - apply ex_twice_covered.
  - eexists; split; vm_compute; reflexivity.
  - intros j k _ _ Hj Hk. apply ex_twice_bits in Hj, Hk.
    destruct Hj as [->| ->]; destruct Hk as [->| ->]; eexists; split; vm_compute; reflexivity.
  - lia.
  - intros k Hk. apply ex_twice_bits. destruct (N.le_gt_cases 2 k) as [H|H]; [|lia].
    rewrite N.bits_above_log2 in Hk; [discriminate|].
    destruct (N.eq_dec f 0) as [->|]; [rewrite N.bits_0 in Hk; discriminate|]. apply N.log2_lt_pow2; [lia|].
    apply N.lt_le_trans with (2 ^ 2)%N; [lia|]. apply N.pow_le_mono_r; lia.
Qed.

(** C06. *)
Theorem C06_flags_to_string_canonical : forall w (src : enum_source N) vs ns,
  aligned (src_values src) (src_names src) vs ns ->
  Forall (name_ok flags_reserved) ns -> bits_covered vs ->
  forall f, (f < 2 ^ w)%N ->
  ((forall k, N.testbit f k = true -> bit_defined vs k) ->
     exists s, api_flags_to_string w src f = Ok s /\
       (f <> 0%N -> canonical_text vs ns f s /\
          forall k, N.testbit f k = true -> exists i, chosen vs f i /\ nth_error vs i = Some (2 ^ k)%N) /\
       (f = 0%N -> name_of_none vs ns s)) /\
  (api_flags_to_string w src f = Contract <-> ~ (forall k, N.testbit f k = true -> bit_defined vs k)).
Proof. exact flags_to_string_exact. Qed.
Print Assumptions C06_flags_to_string_canonical.

Example C06_example :
  api_flags_to_string 8 ex_veg 6 = Ok (lit "onion+eggplant") /\
  api_flags_to_string 8 ex_veg 0 = Ok (lit "nothing") /\
  api_flags_to_string 8 ex_veg 9 = Contract /\
  aligned (src_values ex_veg) (src_names ex_veg) ex_veg_vs ex_veg_ns /\
  Forall (name_ok flags_reserved) ex_veg_ns /\ bits_covered ex_veg_vs.
Proof. repeat split; auto using ex_veg_ok, ex_veg_covered. Qed.

(** C07. *)
Theorem C07_parse_flags_grammar : forall (src : enum_source N) vs ns,
  aligned (src_values src) (src_names src) vs ns ->
  Forall (name_ok flags_reserved) ns -> bits_covered vs ->
  exists vs' ns', reordered vs ns vs' ns' /\
    forall indet s,
      (forall f, api_parse_flags indet src s = Ok f <-> flags_text vs' ns' s f) /\
      ((~ exists f, api_parse_flags indet src s = Ok f) ->
       exists t, offending ns' s t /\
         api_parse_flags indet src s =
         Throw (RuntimeError (error_text (title_of (src_name src) (src_description src)) t
                                (lit "a '+'-delimited subset of ") ns'))).
Proof. exact parse_flags_exact. Qed.
Print Assumptions C07_parse_flags_grammar.

Example C07_example :
  api_parse_flags 9 ex_veg (lit " mixed | eggplant+ ") = Ok 7%N /\
  api_parse_flags 9 ex_veg (lit "onion+ +tomato") =
  Throw (RuntimeError (lit "Veg: unknown value ''; supported values: a '+'-delimited subset of { 'tomato', 'onion', 'eggplant', 'mixed', 'nothing' }")).
Proof. split; reflexivity. Qed.

(** C08. *)
Theorem C08_flags_metadata_reordering : forall (src : enum_source N) vs ns,
  aligned (src_values src) (src_names src) vs ns ->
  Forall (name_ok flags_reserved) ns -> bits_covered vs ->
  exists md, static_flags_metadata src = Ok md /\
    reordered vs ns (md_values (fmd_base md)) (md_names (fmd_base md)) /\
    (forall k, N.testbit (fmd_all_defined_flags md) k = true <-> bit_defined vs k) /\
    name_of_none vs ns (fmd_none_name md) /\
    (forall i v, nth_error (md_values (fmd_base md)) i = Some v ->
       (i < fmd_num_individual_names md <-> single_bit v)).
Proof. exact flags_metadata_exact. Qed.
Print Assumptions C08_flags_metadata_reordering.

Theorem C08_flags_metadata_accepted_iff : forall (src : enum_source N),
  ((exists md, static_flags_metadata src = Ok md) <->
   (exists vs ns, aligned (src_values src) (src_names src) vs ns /\
      Forall (name_ok flags_reserved) ns /\ bits_covered vs)) /\
  (~ (exists md, static_flags_metadata src = Ok md) -> static_flags_metadata src = IllFormed).
Proof. exact flags_metadata_acceptance. Qed.
Print Assumptions C08_flags_metadata_accepted_iff.

Example C08_example :
  (exists md, static_flags_metadata ex_veg = Ok md /\
     md_values (fmd_base md) = [1%N; 2%N; 4%N; 3%N; 0%N] /\ fmd_num_individual_names md = 3) /\
  static_flags_metadata (mk_source None None (Some [1%N; 6%N; 2%N]) (Some [lit "a"; lit "b"; lit "c"])) = IllFormed.
Proof. split; [|reflexivity]. eexists; split; [vm_compute; reflexivity|]. split; reflexivity. Qed.
