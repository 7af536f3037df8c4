(** Properties of reflection metadata: C39 - C43. *)

From Coq Require Import String Ascii ZArith Arith Bool Lia List.
From Verif Require Import Base TupleModel TupleProofs MetaModel MetaSpec MetaProofs.
Import ListNotations.

(** * C39 *)
(** name() and description(): the first and second string among the entries, wherever they are. *)
Theorem C39_name_description : forall m l, well_typed m -> tuple_or_array m l ->
  name m = option_map (MStr false) (nth_error (strings l) 0) /\
  description m = option_map (MStr false) (nth_error (strings l) 1).
Proof. intros m l W H. split; apply extract_string_tuple; assumption. Qed.
Print Assumptions C39_name_description.

(** Metadata may also consist of the name alone. *)
Theorem C39_name_only : forall m, (forall l, ~ tuple_or_array m l) ->
  name m = match m with MStr _ s => Some (MStr false s) | _ => None end /\ description m = None.
Proof.
  intros m H. destruct m as [b s| | | | | | |]; try (split; reflexivity).
  - destruct b; split; reflexivity.
  - exfalso. eapply H. left. reflexivity.
  - exfalso. eapply H. right. eexists. reflexivity.
Qed.
Print Assumptions C39_name_only.

(** values(), value_names() and value_descriptions() are aligned: all are columns of the same list of records. *)
Theorem C39_values_aligned : forall reflect T rs, well_typed (reflect T) -> lists_records (value_of T) (reflect T) rs ->
  (exists vs, values reflect T = Ok (Some (map (MVal T) vs)) /\ Forall2 (fun r v => record_about r (MVal T v)) rs vs) /\
  ((exists ns, value_names reflect T = Ok (Some (map (MStr false) ns)) /\ Forall2 record_name rs ns) \/
   (value_names reflect T = Ok None /\ exists r, In r rs /\ forall n, ~ record_name r n)) /\
  ((exists ns, value_descriptions reflect T = Ok (Some (map (MStr false) ns)) /\ Forall2 record_description rs ns) \/
   (value_descriptions reflect T = Ok None /\ exists r, In r rs /\ forall n, ~ record_description r n)).
Proof.
  intros reflect T rs W H. split; [apply values_of_records; assumption|]. split.
  - destruct (value_strings_of_records T 0 (reflect T) rs W H) as [G|[G [r [G1 G2]]]]; [left; exact G|].
    right. split; [assumption|]. exists r. split; [assumption|]. intros n Hn. unfold record_name in Hn. congruence.
  - destruct (value_strings_of_records T 1 (reflect T) rs W H) as [G|[G [r [G1 G2]]]]; [left; exact G|].
    right. split; [assumption|]. exists r. split; [assumption|]. intros n Hn. unfold record_description in Hn. congruence.
Qed.
Print Assumptions C39_values_aligned.

(** In general: whenever there are names, there are as many values, and both come from one list of records which is the
    metadata or one of their entries. *)
Theorem C39_names_belong_to_values : forall reflect T ns, well_typed (reflect T) ->
  value_names reflect T = Ok (Some ns) ->
  exists x rs vs, (x = reflect T \/ In x (elements (reflect T))) /\ tuple_or_array x rs /\
    values reflect T = Ok (Some (map (MVal T) vs)) /\ Forall2 (fun r v => record_about r (MVal T v)) rs vs /\
    exists names, ns = map (MStr false) names /\ Forall2 record_name rs names.
Proof.
  intros reflect T ns W. unfold value_names, values, extract_value_metadata, extract_values. generalize dependent (reflect T). intros m W.
  destruct (extract_metadata (is_value_record_tuple T) 0 m) as [x|] eqn:E.
  - assert (Ns : forall M, is_string M = true -> is_value_record_tuple T M = false) by (intros M HM; destruct M; try discriminate HM; reflexivity).
    destruct (extract_metadata_in _ m x W Ns E) as [Wx [Ix Px]].
    intro H. destruct (value_q2 T x Wx Px) as [H0|[rs Hx]].
    + exists x, [], []. split; [assumption|]. split; [assumption|]. unfold extract_column. rewrite (proj2 (element_types_ok x [] Wx H0)).
      split; [reflexivity|]. split; [constructor|]. exists []. split; [|constructor].
      destruct H0 as [->|[r ->]].
      * cbn in H. injection H as <-. reflexivity.
      * cbn [try_extract_column] in H. destruct (record_index is_string 0 r); cbn in H; [injection H as <-; reflexivity|discriminate].
    + destruct (column_0 (value_of T) (is_value T) (value_kind T) (value_nostr T) x rs Hx) as [xs [E1 F]].
      assert (G : exists vs, xs = map (MVal T) vs /\ Forall2 (fun r v => record_about r (MVal T v)) rs vs).
      { clear - F. induction F as [|r y rs xs [[v ->] Ry] F IH]; [exists []; split; [reflexivity|constructor]|].
        destruct IH as [vs [-> IH]]. exists (v :: vs). split; [reflexivity|constructor; assumption]. }
      destruct G as [vs [-> G]]. exists x, rs, vs. split; [assumption|]. split; [apply Hx|].
      unfold extract_column. rewrite (proj2 (element_types_ok x rs Wx (proj1 Hx))), E1. split; [reflexivity|]. split; [assumption|].
      destruct (try_extract_strings (value_of T) 0 x rs Wx Hx) as [[names [E2 F2]]|[E2 _]]; [|congruence].
      exists names. split; [congruence|assumption].
  - intro H. exfalso. destruct (is_available m) eqn:A; [|discriminate].
    destruct (bind_ok_inv _ _ _ _ _ H) as [vs [Hv Hm]].
    destruct vs; [discriminate|].
    destruct (extract_metadata (is_value_array T) 0 m); [discriminate|].
    destruct (extract_metadata (is_value_record T) 0 m) as [r|]; [destruct (nth_error (elements r) 0); discriminate|].
    destruct (extract_metadata (is_value T) 0 m); [discriminate|].
    destruct (is_value T (type_of m)); [discriminate|]. discriminate.
Qed.
Print Assumptions C39_names_belong_to_values.

(** An array of plain values next to a name provides values but no value names. *)
Theorem C39_value_array : forall reflect T pre vs post b s,
  let a := MArray (TVal T) (map (MVal T) vs) in let l := pre ++ a :: post in
  reflect T = MTuple l -> well_typed (MTuple l) ->
  In (MStr b s) l -> (forall y l', In y (pre ++ post) -> ~ tuple_or_array y l') ->
  values reflect T = Ok (Some (map (MVal T) vs)) /\ value_names reflect T = Ok None.
Proof.
  intros reflect T pre vs post b s a l E W Hs Hn.
  assert (X0 : extract_metadata (is_value_record_tuple T) 0 (reflect T) = None).
  { rewrite E. rewrite (extract_tuple _ 0 (MTuple l) l W (or_introl eq_refl)).
    - replace (filter (fun x => is_value_record_tuple T (type_of x)) l) with (@nil md); [reflexivity|]. symmetry.
      assert (N : forall y, In y l -> is_value_record_tuple T (type_of y) = false).
      { intros y Hy. unfold l in Hy. apply in_app_or in Hy. cbn [In] in Hy.
        assert (D : y = a \/ In y (pre ++ post)) by (rewrite in_app_iff; destruct Hy as [Hy|[Hy|Hy]]; auto). destruct D as [->|D]; [reflexivity|].
        destruct y; try reflexivity; exfalso; eapply Hn; try exact D; [left|right; eexists]; reflexivity. }
      clearbody l. clear - N. induction l as [|y l IH]; [reflexivity|].
      cbn [filter]. rewrite (N y (or_introl eq_refl)). apply IH. intros; apply N; right; assumption.
    - intros _. apply not_true_iff_false. intro F. cbn in F. unfold is_tuple_of in F. cbn [element_types] in F. rewrite forallb_forall in F.
      specialize (F (TStr b)). discriminate F. apply in_map_iff. exists (MStr b s). split; [reflexivity|assumption]. }
  assert (X1 : extract_metadata (is_value_array T) 0 (reflect T) = Some a).
  { rewrite E. rewrite (extract_tuple _ 0 (MTuple l) l W (or_introl eq_refl)); [|reflexivity].
    unfold l. rewrite filter_app. replace (filter (fun x => is_value_array T (type_of x)) pre) with (@nil md).
    - cbn [app filter]. unfold a. cbn [type_of is_value_array is_value]. rewrite Nat.eqb_refl. reflexivity.
    - assert (N : forall y, In y pre -> is_value_array T (type_of y) = false).
      { intros y Hy. destruct y; try reflexivity. exfalso. eapply Hn; [apply in_or_app; left; exact Hy|right; eexists; reflexivity]. }
      clear - N. symmetry. induction pre as [|y pre IH]; [reflexivity|].
      cbn [filter]. rewrite (N y (or_introl eq_refl)). apply IH. intros; apply N; right; assumption. }
  assert (V : values reflect T = Ok (Some (map (MVal T) vs))) by (unfold values, extract_values; rewrite X0, X1; reflexivity).
  split; [exact V|]. unfold value_names, extract_value_metadata. unfold values in V. rewrite X0, V. rewrite E. reflexivity.
Qed.
Print Assumptions C39_value_array.

(** Absence. *)
Theorem C39_absent : forall is_base_of is_class reflect T fuel, reflect T = MNullopt ->
  name (reflect T) = None /\ description (reflect T) = None /\ values reflect T = Ok None /\ value_names reflect T = Ok None /\
  bases is_base_of is_class reflect T = Ok None /\ exclusive_members is_class reflect T = Ok None /\
  members is_base_of is_class reflect (S fuel) T = Ok None /\ member_names is_base_of is_class reflect T = Ok None.
Proof.
  intros ib ic reflect T fuel E. unfold name, description, values, value_names, bases, exclusive_members, members, member_names,
    extract_all_member_metadata. cbn [all_members]. unfold exclusive_members. rewrite E. repeat split.
Qed.
Print Assumptions C39_absent.

(** The restriction in [lists_records]: an empty tuple among the entries counts as a list of records of any kind and hides
    the list that comes after it. *)
Theorem C39_empty_list_refuted : exists reflect T rs, well_typed (reflect T) /\
  (exists l post, reflect T = MTuple (l ++ MTuple rs :: post) /\ record_list (value_of T) (MTuple rs) rs) /\
  values reflect T = Ok (Some []).
Proof.
  exists (fun _ => MTuple [MTuple []; MTuple [MTuple [MVal 0 7; MStr true (lit "seven")]]]), 0, [MTuple [MVal 0 7; MStr true (lit "seven")]].
  split; [repeat constructor|]. split; [|reflexivity].
  exists [MTuple []], []. split; [reflexivity|]. split; [left; reflexivity|]. split; [discriminate|].
  constructor; [|constructor]. exists (MVal 0 7). split; [exists 7%Z; reflexivity|]. eexists. left. reflexivity.
Qed.
Print Assumptions C39_empty_list_refuted.

(** The enumeration { red = 1, green = 2 } whose list of values precedes its name; only its values have descriptions. *)
Definition color : md :=
  MTuple [MTuple [MTuple [MVal 0 1; MStr true (lit "red"); MStr true (lit "like a rose")]; MTuple [MVal 0 2; MStr true (lit "green"); MStr true (lit "like grass")]];
          MOther 0; MStr true (lit "color")].
Example C39_color :
  let r := fun _ : nat => color in
  well_typed color /\ lists_records (value_of 0) color (elements (MTuple (match color with MTuple (MTuple rs :: _) => rs | _ => [] end))) /\
  name color = Some (MStr false (lit "color")) /\ description color = None /\
  values r 0 = Ok (Some [MVal 0 1; MVal 0 2]) /\
  value_names r 0 = Ok (Some [MStr false (lit "red"); MStr false (lit "green")]) /\
  value_descriptions r 0 = Ok (Some [MStr false (lit "like a rose"); MStr false (lit "like grass")]).
Proof.
  cbn [color elements]. split; [repeat constructor|]. split; [|vm_compute; repeat split].
  right. eexists _, [], _, _. split; [left; reflexivity|]. split; [reflexivity|]. split.
  - split; [left; reflexivity|]. split; [discriminate|]. repeat constructor; (eexists; split; [eexists; reflexivity|]; eexists; left; reflexivity).
  - intros y [].
Qed.
Example C39_array : values (fun _ => MTuple [MStr true (lit "digit"); MArray (TVal 0) [MVal 0 3; MVal 0 4]]) 0 = Ok (Some [MVal 0 3; MVal 0 4]) /\
  name (MArray (TStr true) [MStr true (lit "n"); MStr true (lit "d")]) = Some (MStr false (lit "n")) /\
  description (MArray (TStr true) [MStr true (lit "n"); MStr true (lit "d")]) = Some (MStr false (lit "d")).
Proof. vm_compute. repeat split. Qed.

(** * C40 *)
Definition string_is (s : str) (a : md) : Prop := exists b, a = MStr b s.

Theorem C40_value_index : forall reflect T vs v, values reflect T = Ok (Some vs) ->
  (search_value_index reflect T v = Ok (-1)%Z /\ find_value_index reflect T v = Contract /\ ~ In (MVal T v) vs) \/
  (exists k, search_value_index reflect T v = Ok (Z.of_nat k) /\ find_value_index reflect T v = Ok (Z.of_nat k) /\
     least_index (eq (MVal T v)) vs k).
Proof.
  intros reflect T vs v H. unfold search_value_index, find_value_index. rewrite H.
  destruct (search_in_spec (eq (MVal T v)) (MVal T v) vs) as [[H1 [H2 H3]]|G]; [|left; repeat split; auto; intro Hi; exact (H3 _ Hi eq_refl)|right; exact G].
  intro a. rewrite md_eqb_val. split; auto.
Qed.
Print Assumptions C40_value_index.

Theorem C40_by_name : forall o ns s, o = Ok (Some (map (MStr false) ns)) ->
  (search_in o (MStr false s) = Ok (-1)%Z /\ find_in o (MStr false s) = Contract /\ ~ In s ns) \/
  (exists k, search_in o (MStr false s) = Ok (Z.of_nat k) /\ find_in o (MStr false s) = Ok (Z.of_nat k) /\ least_index (eq s) ns k).
Proof.
  intros o ns s ->. destruct (search_in_spec (string_is s) (MStr false s) (map (MStr false) ns) (md_eqb_str s)) as [[H1 [H2 H3]]|[k [H1 [H2 [[a [A1 A2]] A3]]]]].
  - left. repeat split; auto. intro Hi. apply (H3 (MStr false s)); [apply in_map; assumption|exists false; reflexivity].
  - right. exists k. split; [assumption|]. split; [assumption|]. rewrite nth_error_map_opt in A1.
    destruct (nth_error ns k) as [n|] eqn:En; [|discriminate]. cbn in A1. injection A1 as <-. destruct A2 as [b A2]. injection A2 as _ ->.
    split; [exists s; auto|]. intros j n Hj Hn Es. subst n. apply (A3 j (MStr false s)); [assumption|rewrite nth_error_map_opt, Hn; reflexivity|exists false; reflexivity].
Qed.
Print Assumptions C40_by_name.

(** The by-name functions are instances, so the index found is the least one with the name; e.g. for values: *)
Theorem C40_value_index_by_name : forall reflect T ns s, value_names reflect T = Ok (Some (map (MStr false) ns)) ->
  (search_value_index_by_name reflect T s = Ok (-1)%Z /\ find_value_index_by_name reflect T s = Contract /\ ~ In s ns) \/
  (exists k, search_value_index_by_name reflect T s = Ok (Z.of_nat k) /\ find_value_index_by_name reflect T s = Ok (Z.of_nat k) /\ least_index (eq s) ns k).
Proof. intros. apply C40_by_name. assumption. Qed.
Print Assumptions C40_value_index_by_name.

Theorem C40_member_index_by_name : forall is_base_of is_class reflect T ns s, member_names is_base_of is_class reflect T = Ok (Some (map (MStr false) ns)) ->
  (search_member_index_by_name is_base_of is_class reflect T s = Ok (-1)%Z /\
   find_member_index_by_name is_base_of is_class reflect T s = Contract /\ ~ In s ns) \/
  (exists k, search_member_index_by_name is_base_of is_class reflect T s = Ok (Z.of_nat k) /\
     find_member_index_by_name is_base_of is_class reflect T s = Ok (Z.of_nat k) /\ least_index (eq s) ns k).
Proof. intros. apply C40_by_name. assumption. Qed.
Print Assumptions C40_member_index_by_name.

(** search_member_by_name() gives the member at the least index with that name, nullopt iff there is none;
    find_member_by_name() does not compile then. *)
Theorem C40_member_by_name : forall is_base_of is_class reflect fuel T ms ns s, members is_base_of is_class reflect fuel T = Ok (Some ms) ->
  member_names is_base_of is_class reflect T = Ok (Some (map (MStr false) ns)) -> length ms = length ns ->
  (search_member_by_name is_base_of is_class reflect fuel T s = Ok None /\
   find_member_by_name is_base_of is_class reflect fuel T s = IllFormed /\ ~ In s ns) \/
  (exists k m, nth_error ms k = Some m /\ search_member_by_name is_base_of is_class reflect fuel T s = Ok (Some m) /\
     find_member_by_name is_base_of is_class reflect fuel T s = Ok m /\ least_index (eq s) ns k).
Proof.
  intros ib ic reflect fuel T ms ns s Hm Hn L. unfold find_member_by_name, search_member_by_name, member_by_index. rewrite Hm. cbn [bind].
  destruct (C40_member_index_by_name ib ic reflect T ns s Hn) as [[H1 [_ H3]]|[k [H1 [_ H3]]]]; rewrite H1; cbn [bind].
  - left. repeat split; auto.
  - right. destruct (Z.leb_spec 0 (Z.of_nat k)) as [_|]; [|lia]. rewrite Nat2Z.id.
    destruct (nth_error ms k) as [m|] eqn:E.
    + exists k, m. repeat split; auto; apply H3.
    + exfalso. apply nth_error_None in E. destruct H3 as [[a [A _]] _]. assert (nth_error ns k <> None) as G by congruence. apply nth_error_Some in G. lia.
Qed.
Print Assumptions C40_member_by_name.

(** The same for the members of the class itself. *)
Theorem C40_exclusive_member_by_name : forall is_class reflect T ms ns s, exclusive_members is_class reflect T = Ok (Some ms) ->
  exclusive_member_names is_class reflect T = Ok (Some (map (MStr false) ns)) -> length ms = length ns ->
  (search_exclusive_member_index_by_name is_class reflect T s = Ok (-1)%Z /\ find_exclusive_member_index_by_name is_class reflect T s = Contract /\
   search_exclusive_member_by_name is_class reflect T s = Ok None /\ find_exclusive_member_by_name is_class reflect T s = IllFormed /\ ~ In s ns) \/
  (exists k m, search_exclusive_member_index_by_name is_class reflect T s = Ok (Z.of_nat k) /\ find_exclusive_member_index_by_name is_class reflect T s = Ok (Z.of_nat k) /\
     nth_error ms k = Some m /\ search_exclusive_member_by_name is_class reflect T s = Ok (Some m) /\
     find_exclusive_member_by_name is_class reflect T s = Ok m /\ least_index (eq s) ns k).
Proof.
  intros ic reflect T ms ns s Hm Hn L. unfold find_exclusive_member_by_name, search_exclusive_member_by_name, member_by_index. rewrite Hm. cbn [bind].
  unfold search_exclusive_member_index_by_name, find_exclusive_member_index_by_name.
  destruct (C40_by_name _ ns s Hn) as [[H1 [H2 H3]]|[k [H1 [H2 H3]]]]; rewrite H1, H2; cbn [bind].
  - left. repeat split; auto.
  - right. destruct (Z.leb_spec 0 (Z.of_nat k)) as [_|]; [|lia]. rewrite Nat2Z.id.
    destruct (nth_error ms k) as [m|] eqn:E.
    + exists k, m. repeat split; auto; apply H3.
    + exfalso. apply nth_error_None in E. destruct H3 as [[a [A _]] _]. assert (nth_error ns k <> None) as G by congruence. apply nth_error_Some in G. lia.
Qed.
Print Assumptions C40_exclusive_member_by_name.

(** Lookups in lists that are not available do not compile. *)
Theorem C40_unavailable_rejected : forall is_base_of is_class reflect fuel T v s,
  (values reflect T = Ok None -> search_value_index reflect T v = IllFormed /\ find_value_index reflect T v = IllFormed) /\
  (value_names reflect T = Ok None -> search_value_index_by_name reflect T s = IllFormed /\ find_value_index_by_name reflect T s = IllFormed) /\
  (exclusive_member_names is_class reflect T = Ok None ->
     search_exclusive_member_index_by_name is_class reflect T s = IllFormed /\ find_exclusive_member_index_by_name is_class reflect T s = IllFormed) /\
  (member_names is_base_of is_class reflect T = Ok None ->
     search_member_index_by_name is_base_of is_class reflect T s = IllFormed /\ find_member_index_by_name is_base_of is_class reflect T s = IllFormed) /\
  (exclusive_members is_class reflect T = Ok None ->
     search_exclusive_member_by_name is_class reflect T s = IllFormed /\ find_exclusive_member_by_name is_class reflect T s = IllFormed) /\
  (members is_base_of is_class reflect fuel T = Ok None ->
     search_member_by_name is_base_of is_class reflect fuel T s = IllFormed /\ find_member_by_name is_base_of is_class reflect fuel T s = IllFormed /\
     tie_members is_base_of is_class reflect fuel T = IllFormed).
Proof.
  intros. unfold search_value_index, find_value_index, search_value_index_by_name, find_value_index_by_name, search_exclusive_member_index_by_name,
    find_exclusive_member_index_by_name, search_member_index_by_name, find_member_index_by_name, find_exclusive_member_by_name, find_member_by_name,
    search_exclusive_member_by_name, search_member_by_name, member_by_index, find_in, search_in, tie_members.
  repeat match goal with |- _ /\ _ => split end; intros H; rewrite H; repeat split; reflexivity.
Qed.
Print Assumptions C40_unavailable_rejected.

Example C40_none : let r := fun _ : nat => MNullopt in
  values r 0 = Ok None /\ value_names r 0 = Ok None /\ exclusive_members (fun _ => true) r 0 = Ok None /\ members (fun _ _ => false) (fun _ => true) r 1 0 = Ok None /\
  search_value_index r 0 3 = IllFormed.
Proof. vm_compute. repeat split. Qed.

Example C40_color : let r := fun _ : nat => color in
  search_value_index r 0 2 = Ok 1%Z /\ search_value_index r 0 9 = Ok (-1)%Z /\ find_value_index r 0 9 = Contract /\
  find_value_index_by_name r 0 (lit "green") = Ok 1%Z /\ find_value_index_by_name r 0 (lit "blue") = Contract.
Proof. vm_compute. repeat split. Qed.

(** * C41 *)
(** members() is the concatenation of the members of the bases, recursively, and of the class's own, for hierarchies of any
    depth and width. *)
Theorem C41_members : forall is_base_of is_class reflect T ms,
  member_list (bases_are is_base_of is_class reflect) (exclusive_are is_class reflect) T ms -> (Z.of_nat (length ms) < size_t_modulus)%Z ->
  exists depth, forall fuel, depth <= fuel -> members is_base_of is_class reflect fuel T = Ok (Some ms).
Proof. intros. eapply all_members_computes; eassumption. Qed.
Print Assumptions C41_members.

(** There is such a list whenever all classes involved are reflected: inheritance is well-founded. *)
Theorem C41_available : forall is_base_of is_class reflect rank T,
  (forall T bs b, bases_are is_base_of is_class reflect T bs -> In b bs -> rank b < rank T) ->
  (forall C, class_of (bases_are is_base_of is_class reflect) T C ->
     exists bs ms, bases_are is_base_of is_class reflect C bs /\ exclusive_are is_class reflect C ms) ->
  exists ms, member_list (bases_are is_base_of is_class reflect) (exclusive_are is_class reflect) T ms.
Proof.
  intros ib ic reflect rank T Hr Hall. destruct (all_members_ok ib ic reflect rank Hr (S (rank T)) T (Nat.lt_succ_diag_r _) Hall) as [ms [H _]].
  exists ms. assumption.
Qed.
Print Assumptions C41_available.

(** Without loss, and nothing else. *)
Theorem C41_exactly : forall is_base_of is_class reflect T ms,
  member_list (bases_are is_base_of is_class reflect) (exclusive_are is_class reflect) T ms ->
  forall m, In m ms <-> exists C cs, class_of (bases_are is_base_of is_class reflect) T C /\ exclusive_are is_class reflect C cs /\ In m cs.
Proof. intros. apply member_list_in. assumption. Qed.
Print Assumptions C41_exactly.

(** The exclusive members of a class are the subjects of its member records, in order. *)
Theorem C41_exclusive : forall is_class reflect T rs, well_typed (reflect T) -> lists_records (member_of T) (reflect T) rs ->
  (forall x, x = reflect T \/ In x (elements (reflect T)) -> record_list (member_of T) x rs -> not_array x) ->
  exists ms, exclusive_members is_class reflect T = Ok (Some ms) /\ Forall2 (fun r m => member_of T m /\ record_about r m) rs ms.
Proof. intros. apply members_of_records; assumption. Qed.
Print Assumptions C41_exclusive.

(** struct A { a0, a1 }; struct B : A { b }; struct C : B { c }: classes 0, 1, 2. *)
Definition member_record (c i : nat) (s : string) : md := MTuple [MMember c 0 i; MStr true (lit s)].
Definition classes (T : nat) : md :=
  match T with
  | 0 => MTuple [MStr true (lit "A"); MTuple [member_record 0 0 "a0"; member_record 0 1 "a1"]]
  | 1 => MTuple [MStr true (lit "B"); MBase 0; MTuple [member_record 1 0 "b"]]
  | 2 => MTuple [MStr true (lit "C"); MTuple [MBase 1]; MTuple [member_record 2 0 "c"]]
  | 3 => MTuple [MStr true (lit "D"); MBase 0]
  | _ => MNullopt
  end.
Definition derives (b t : nat) : bool := Nat.leb b t.
Definition all_classes (t : nat) : bool := true.
Example C41_hierarchy :
  member_list (bases_are derives all_classes classes) (exclusive_are all_classes classes) 2
    [MMember 0 0 0; MMember 0 0 1; MMember 1 0 0; MMember 2 0 0] /\
  members derives all_classes classes 3 2 = Ok (Some [MMember 0 0 0; MMember 0 0 1; MMember 1 0 0; MMember 2 0 0]).
Proof.
  split; [|vm_compute; reflexivity].
  apply (ml_intro (bases_are derives all_classes classes) (exclusive_are all_classes classes) 2 [1] [MMember 2 0 0] [[MMember 0 0 0; MMember 0 0 1; MMember 1 0 0]]);
    [vm_compute; reflexivity|vm_compute; reflexivity|]. constructor; [|constructor].
  apply (ml_intro (bases_are derives all_classes classes) (exclusive_are all_classes classes) 1 [0] [MMember 1 0 0] [[MMember 0 0 0; MMember 0 0 1]]);
    [vm_compute; reflexivity|vm_compute; reflexivity|]. constructor; [|constructor].
  apply (ml_intro (bases_are derives all_classes classes) (exclusive_are all_classes classes) 0 [] [MMember 0 0 0; MMember 0 0 1] []);
    [vm_compute; reflexivity|vm_compute; reflexivity|]. constructor.
Qed.

(** If one of the bases of a class with members has no member metadata, the list of members does not compile. *)
Theorem C41_base_rejected : forall is_base_of is_class reflect fuel T bs b ms, bases_are is_base_of is_class reflect T bs ->
  exclusive_are is_class reflect T ms -> In b bs -> exclusive_members is_class reflect b = Ok None ->
  (forall b', In b' bs -> exists o, members is_base_of is_class reflect fuel b' = Ok o) ->
  members is_base_of is_class reflect (S fuel) T = IllFormed.
Proof.
  intros ib ic reflect fuel T bs b ms Hb He Hi Hn Hall. unfold members in *. cbn [all_members]. rewrite He. cbn [bind]. rewrite Hb. cbn [bind must_be_tuple].
  assert (G : forall l, (forall b', In b' l -> exists o, all_members ib ic reflect fuel b' = Ok o) -> In b l ->
    mapM (fun b => do u <- base_class b; do l <- all_members ib ic reflect fuel u; must_be_tuple l) (map MBase l) = IllFormed).
  { assert (N : forall o, all_members ib ic reflect fuel b = Ok o -> o = None). { destruct fuel; cbn [all_members]; [discriminate|]. rewrite Hn. cbn [bind]. congruence. }
    induction l as [|a l IH]; intros Ha Hl; [destruct Hl|]. cbn [map mapM base_class bind]. destruct (Ha a (or_introl eq_refl)) as [o E]. rewrite E. cbn [bind].
    destruct o as [l0|]; cbn [must_be_tuple bind]; [|reflexivity]. destruct Hl as [->|Hl]; [specialize (N _ E); discriminate|].
    rewrite IH; auto. intros; apply Ha; right; auto. }
  rewrite G; auto.
Qed.
Print Assumptions C41_base_rejected.
Example C41_base_without : members derives all_classes (fun T => match T with 0 => MNullopt | T => classes T end) 2 1 = IllFormed.
Proof. vm_compute. reflexivity. Qed.

(** * C42 *)
(** Missing: deeper hierarchies, and classes some of whose bases, or which themselves, have no member records of their own;
    there the claim is false, see below. *)
Theorem C42_member_names_partial : forall is_base_of is_class reflect T bs fuel,
  bases_are is_base_of is_class reflect T bs -> (exists rs, named reflect T rs) ->
  (forall b, In b bs -> bases_are is_base_of is_class reflect b [] /\ exists rs, named reflect b rs) -> 2 <= fuel ->
  exists ms ns,
    Forall2 (fun m n => exists C rs, (C = T \/ In C bs) /\ named reflect C rs /\ member_of C m /\ described rs m n) ms ns /\
    ((Z.of_nat (length ms) < size_t_modulus)%Z ->
     members is_base_of is_class reflect fuel T = Ok (Some ms) /\
     member_names is_base_of is_class reflect T = Ok (Some (map (MStr false) ns))).
Proof. intros. apply members_names_aligned; assumption. Qed.
Print Assumptions C42_member_names_partial.

Theorem C42_find_member_by_name_partial : forall is_base_of is_class reflect T bs fuel,
  bases_are is_base_of is_class reflect T bs -> (exists rs, named reflect T rs) ->
  (forall b, In b bs -> bases_are is_base_of is_class reflect b [] /\ exists rs, named reflect b rs) -> 2 <= fuel ->
  exists names : list str, forall n,
    if in_dec (list_eq_dec ascii_dec) n names then
      (Z.of_nat (length names) < size_t_modulus)%Z ->
      exists m C rs, find_member_by_name is_base_of is_class reflect fuel T n = Ok m /\
        (C = T \/ In C bs) /\ named reflect C rs /\ member_of C m /\ described rs m n
    else (Z.of_nat (length names) < size_t_modulus)%Z -> find_member_by_name is_base_of is_class reflect fuel T n = IllFormed.
Proof.
  intros ib ic reflect T bs fuel Hb HT HB Hf.
  destruct (members_names_aligned ib ic reflect T bs fuel Hb HT HB Hf) as [ms [ns [F G]]].
  assert (L := Forall2_length F). exists ns. intro n.
  destruct (in_dec (list_eq_dec ascii_dec) n ns) as [I|I]; intro Hs; assert (Hs' := Hs); change (Z.of_nat (@length str ns) < size_t_modulus)%Z in Hs'; rewrite <- L in Hs'; destruct (G Hs') as [G1 G2];
    destruct (C40_member_by_name ib ic reflect fuel T ms ns n G1 G2 L) as [[_ [H2 H3]]|[k [m [H1 [_ [H3 [[n' [N1 N2]] _]]]]]]].
  - contradiction.
  - subst n'. destruct (Forall2_in_pos _ _ _ _ _ k _ F H1) as [n' [N' [C [rs P]]]]. assert (n' = n) by congruence. subst n'. exists m, C, rs. auto.
  - assumption.
  - subst n'. exfalso. apply I. eapply nth_error_In. eassumption.
Qed.
Print Assumptions C42_find_member_by_name_partial.

(** member_names() descends one level only: with A <- B <- C, the names of the members of A are missing from those of C,
    and find_member_by_name<C>("b") finds a member of A described under the name a0. *)
Theorem C42_deep_hierarchy_refuted : exists is_base_of is_class reflect T ms ns n m,
  members is_base_of is_class reflect 3 T = Ok (Some ms) /\
  member_names is_base_of is_class reflect T = Ok (Some ns) /\ length ns < length ms /\
  find_member_by_name is_base_of is_class reflect 3 T n = Ok m /\
  forall C rs, named reflect C rs -> member_of C m -> ~ described rs m n.
Proof.
  exists derives, all_classes, classes, 2, [MMember 0 0 0; MMember 0 0 1; MMember 1 0 0; MMember 2 0 0],
    [MStr false (lit "b"); MStr false (lit "c")], (lit "b"), (MMember 0 0 0).
  split; [vm_compute; reflexivity|]. split; [vm_compute; reflexivity|]. split; [cbn; lia|]. split; [vm_compute; reflexivity|].
  intros C rs [_ [L _]] [d [i Ei]] [r [Hr [_ Hn]]]. injection Ei as <- <- <-.
  assert (Rl : exists x, record_list (member_of 0) x rs /\ (x = classes 0 \/ In x (elements (classes 0)))).
  { destruct L as [L|[l [pre [x [post [L1 [-> [L3 _]]]]]]]]; [eexists; split; [exact L|left; reflexivity]|].
    exists x. split; [exact L3|]. right. assert (Ee : elements (classes 0) = pre ++ x :: post) by (destruct L1 as [L1|[r' L1]]; exact (f_equal elements L1)). rewrite Ee. apply in_or_app. right. left. reflexivity. }
  destruct Rl as [x [[Hx [_ Fx]] Ix]]. cbn [classes elements In] in Ix.
  destruct Ix as [->|[<-|[<-|[]]]]; destruct Hx as [Hx|[r' Hx]]; try discriminate; injection Hx as <-.
  - inversion Fx as [|? ? [y [_ [l [E|[? E]]]]] _]; discriminate.
  - destruct Hr as [<-|[<-|[]]]; vm_compute in Hn; discriminate.
Qed.
Print Assumptions C42_deep_hierarchy_refuted.

(** A class without members of its own has no member names although it has members. *)
Theorem C42_no_own_members_refuted : exists is_base_of is_class reflect T ms,
  members is_base_of is_class reflect 2 T = Ok (Some ms) /\ ms <> [] /\ (forall C, In C [T; 0] -> exists bs, bases_are is_base_of is_class reflect C bs) /\
  (exists ns, member_names is_base_of is_class reflect 0 = Ok (Some ns)) /\
  member_names is_base_of is_class reflect T = Ok None.
Proof.
  exists derives, all_classes, classes, 3, [MMember 0 0 0; MMember 0 0 1].
  split; [vm_compute; reflexivity|]. split; [discriminate|]. split; [|split; [eexists|]; vm_compute; reflexivity].
  intros C [<-|[<-|[]]]; [exists [0]|exists []]; vm_compute; reflexivity.
Qed.
Print Assumptions C42_no_own_members_refuted.

Lemma named_A : named classes 0 [member_record 0 0 "a0"; member_record 0 1 "a1"].
Proof.
  split; [repeat constructor|]. split.
  - right. eexists _, [_], _, []. split; [left; reflexivity|]. split; [reflexivity|]. split.
    + split; [left; reflexivity|]. split; [discriminate|]. repeat constructor; (eexists; split; [do 2 eexists; reflexivity|]; eexists; left; reflexivity).
    + intros y [<-|[]]. split; [intros [E|[? E]]; discriminate|]. intros rs' [[E|[? E]] _]; discriminate.
  - split.
    + intros x [->|Hx] Hr r l E; [discriminate|]. cbn [classes elements In] in Hx. destruct Hx as [<-|[<-|[]]]; discriminate.
    + intros r [<-|[<-|[]]]; eexists; reflexivity.
Qed.
Lemma named_B : named classes 1 [member_record 1 0 "b"].
Proof.
  split; [repeat constructor|]. split.
  - right. eexists _, [_; _], _, []. split; [left; reflexivity|]. split; [reflexivity|]. split.
    + split; [left; reflexivity|]. split; [discriminate|]. repeat constructor; (eexists; split; [do 2 eexists; reflexivity|]; eexists; left; reflexivity).
    + intros y [<-|[<-|[]]]; (split; [intros [E|[? E]]; discriminate|]; intros rs' [[E|[? E]] _]; discriminate).
  - split.
    + intros x [->|Hx] Hr r l E; [discriminate|]. cbn [classes elements In] in Hx. destruct Hx as [<-|[<-|[<-|[]]]]; discriminate.
    + intros r [<-|[]]; eexists; reflexivity.
Qed.
Example C42_one_level : bases_are derives all_classes classes 1 [0] /\ (exists rs, named classes 1 rs) /\
  (forall b, In b [0] -> bases_are derives all_classes classes b [] /\ exists rs, named classes b rs) /\
  find_member_by_name derives all_classes classes 2 1 (lit "b") = Ok (MMember 1 0 0) /\
  find_member_by_name derives all_classes classes 2 1 (lit "a1") = Ok (MMember 0 0 1).
Proof.
  split; [vm_compute; reflexivity|]. split; [eexists; apply named_B|]. split.
  - intros b [<-|[]]. split; [vm_compute; reflexivity|eexists; apply named_A].
  - split; vm_compute; reflexivity.
Qed.

(** * C43 *)
(** The tie refers to the members, in order. *)
Theorem C43_read : forall is_base_of is_class reflect fuel T ms x, members is_base_of is_class reflect fuel T = Ok (Some ms) ->
  exists tie, tie_members is_base_of is_class reflect fuel T = Ok tie /\ read_tie tie x = map x ms.
Proof. intros ib ic reflect fuel T ms x H. exists ms. unfold tie_members. rewrite H. split; reflexivity. Qed.
Print Assumptions C43_read.

(** Assigning to it updates exactly these members. *)
Theorem C43_assign : forall is_base_of is_class reflect fuel T ms vs x, members is_base_of is_class reflect fuel T = Ok (Some ms) ->
  Forall is_member_pointer ms -> NoDup ms -> length ms = length vs ->
  exists tie y, tie_members is_base_of is_class reflect fuel T = Ok tie /\ assign_tie tie vs x = Ok y /\
    map y ms = vs /\ forall m, ~ In m ms -> y m = x m.
Proof.
  intros ib ic reflect fuel T ms vs x H Hp Hn L. unfold tie_members. rewrite H. cbn [bind].
  destruct (assign_tie_spec ms vs x Hp Hn L) as [y [H1 [H2 H3]]]. exists ms, y. auto.
Qed.
Print Assumptions C43_assign.

(** Members selected by name come in the order of the names. *)
Theorem C43_by_name : forall is_base_of is_class reflect fuel T names tie,
  tie_members_by_name is_base_of is_class reflect fuel T names = Ok tie <->
  Forall2 (fun n m => find_member_by_name is_base_of is_class reflect fuel T n = Ok m) names tie.
Proof. intros. apply mapM_inv. Qed.
Print Assumptions C43_by_name.

(** Assigning one object's tie by name to another's copies by name, irrespective of the layouts of the two classes. *)
Theorem C43_copy_by_name : forall is_base_of is_class reflect fuel T U names tieT tieU x y,
  tie_members_by_name is_base_of is_class reflect fuel T names = Ok tieT ->
  tie_members_by_name is_base_of is_class reflect fuel U names = Ok tieU ->
  Forall is_member_pointer tieU -> NoDup tieU ->
  exists y', assign_tie tieU (read_tie tieT x) y = Ok y' /\
    (forall n mT mU, In n names -> find_member_by_name is_base_of is_class reflect fuel T n = Ok mT ->
       find_member_by_name is_base_of is_class reflect fuel U n = Ok mU -> y' mU = x mT) /\
    (forall m, ~ In m tieU -> y' m = y m).
Proof.
  intros ib ic reflect fuel T U names tieT tieU x y HT HU Hp Hn.
  apply (proj1 (C43_by_name _ _ _ _ _ _ _)) in HT. apply (proj1 (C43_by_name _ _ _ _ _ _ _)) in HU.
  destruct (assign_tie_spec tieU (read_tie tieT x) y Hp Hn) as [y' [H1 [H2 H3]]].
  { unfold read_tie. rewrite map_length, <- (Forall2_length HT), <- (Forall2_length HU). reflexivity. }
  exists y'. split; [assumption|]. split; [|assumption].
  intros n mT mU I FT FU. apply In_nth_error in I. destruct I as [k Hk].
  destruct (Forall2_in_pos _ _ _ _ _ k _ HT Hk) as [mT' [KT ET]]. destruct (Forall2_in_pos _ _ _ _ _ k _ HU Hk) as [mU' [KU EU]].
  assert (mT' = mT) by congruence. assert (mU' = mU) by congruence. subst.
  assert (Q : nth_error (read_tie tieU y') k = nth_error (read_tie tieT x) k) by congruence. unfold read_tie in Q.
  rewrite !nth_error_map_opt, KT, KU in Q. cbn in Q. congruence.
Qed.
Print Assumptions C43_copy_by_name.

(** Two classes with the same names in different orders. *)
Definition layouts (T : nat) : md :=
  match T with
  | 0 => MTuple [MTuple [member_record 0 0 "x"; member_record 0 1 "y"]]
  | _ => MTuple [MTuple [member_record 1 0 "y"; member_record 1 1 "z"; member_record 1 2 "x"]]
  end.
Example C43_layouts :
  tie_members_by_name Nat.eqb all_classes layouts 1 0 [lit "y"; lit "x"] = Ok [MMember 0 0 1; MMember 0 0 0] /\
  tie_members_by_name Nat.eqb all_classes layouts 1 1 [lit "y"; lit "x"] = Ok [MMember 1 0 0; MMember 1 0 2] /\
  tie_members Nat.eqb all_classes layouts 1 1 = Ok [MMember 1 0 0; MMember 1 0 1; MMember 1 0 2] /\
  NoDup [MMember 1 0 0; MMember 1 0 2] /\ Forall is_member_pointer [MMember 1 0 0; MMember 1 0 2].
Proof.
  split; [vm_compute; reflexivity|]. split; [vm_compute; reflexivity|]. split; [vm_compute; reflexivity|]. split.
  - repeat constructor; cbn; intros H; repeat (destruct H as [H|H]; try discriminate H); exact H.
  - repeat constructor; do 3 eexists; reflexivity.
Qed.
