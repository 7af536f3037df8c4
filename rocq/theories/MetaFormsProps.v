(** Further properties of reflection metadata: all forms in which bases, values and members may be listed (C39, C41), and
    member descriptions (C42). *)

From Coq Require Import String Ascii ZArith Arith Bool Lia List.
From Verif Require Import Base TupleModel MetaModel MetaSpec MetaProofs MetaFormsSpec MetaFormsProofs MetaProps.
Import ListNotations.

(** * C39 *)
(** What values() returns, for arbitrary metadata. *)
Theorem C39_values_forms : forall reflect T, well_typed (reflect T) -> forall o,
  values reflect T = Ok o <->
  listing (value_of T) (value_list T) (value_record_list T) (fun _ => True) (if_reflected (reflect T)) (reflect T) o.
Proof.
  intros reflect T W o. unfold values, extract_values. rewrite <- (value_scheme T (reflect T)
    (if is_value T (type_of (reflect T)) then Ok (Some [reflect T]) else if is_available (reflect T) then Ok (Some []) else Ok None)).
  - reflexivity.
  - assumption.
  - intros [N _]. destruct (is_value T (type_of (reflect T))) eqn:E; [apply value_kind in E; contradiction|].
    destruct (reflect T); reflexivity.
Qed.
Print Assumptions C39_values_forms.

(** A single record, or a lone value. *)
Example C39_lone_values :
  values (fun _ => MTuple [MStr true (lit "unit"); MTuple [MVal 0 1; MStr true (lit "one")]]) 0 = Ok (Some [MVal 0 1]) /\
  values (fun _ => MTuple [MStr true (lit "unit"); MVal 0 1; MVal 0 2]) 0 = Ok (Some [MVal 0 1]) /\
  values (fun _ => MTuple [MStr true (lit "unit")]) 0 = Ok (Some []) /\ values (fun _ => MVal 0 3) 0 = Ok (Some [MVal 0 3]).
Proof. repeat split. Qed.

(** * C41 *)
(** What bases() returns, for arbitrary metadata. *)
Theorem C41_bases_forms : forall is_base_of is_class reflect T, well_typed (reflect T) -> forall o,
  let P := base_of is_base_of T in
  bases is_base_of is_class reflect T = Ok o <->
  listing P (any_list P) (any_record_list P) is_tuple (if_class is_class T (reflect T)) (reflect T) o.
Proof.
  intros ib ic reflect T W o P. unfold bases, extract_bases.
  rewrite <- (tuple_scheme P (is_base ib T) (base_kind ib T)) with (m := reflect T)
    (rest := if is_base ib T (type_of (reflect T)) then Ok (Some [reflect T])
             else if is_available (reflect T) && ic T then Ok (Some []) else Ok None).
  - reflexivity.
  - intros M [HM| ->]; [destruct M; try discriminate|]; reflexivity.
  - assumption.
  - intros [N _]. destruct (is_base ib T (type_of (reflect T))) eqn:E; [apply base_kind in E; contradiction|].
    unfold if_class. destruct (reflect T), (ic T); reflexivity.
Qed.
Print Assumptions C41_bases_forms.

(** What exclusive_members() returns, for arbitrary metadata. *)
Theorem C41_exclusive_forms : forall is_class reflect T, well_typed (reflect T) -> forall o,
  let P := member_of T in
  exclusive_members is_class reflect T = Ok o <->
  listing P (any_list P) (any_record_list P) is_tuple (if_class is_class T (reflect T)) (reflect T) o.
Proof.
  intros ic reflect T W o P. unfold exclusive_members, extract_members.
  rewrite <- (tuple_scheme P (is_member T) (member_kind T)) with (m := reflect T)
    (rest := if is_member T (type_of (reflect T)) then Ok (Some [reflect T])
             else if is_available (reflect T) && ic T then Ok (Some []) else Ok None).
  - reflexivity.
  - intros M [HM| ->]; [destruct M; try discriminate|]; reflexivity.
  - assumption.
  - intros [N _]. destruct (is_member T (type_of (reflect T))) eqn:E; [apply member_kind in E; contradiction|].
    unfold if_class. destruct (reflect T), (ic T); reflexivity.
Qed.
Print Assumptions C41_exclusive_forms.

(** In particular: bases listed as a plain tuple come in the order given. *)
Theorem C41_bases_in_order : forall is_base_of is_class reflect T pre us post,
  reflect T = MTuple (pre ++ MTuple (map MBase us) :: post) -> us <> [] -> (forall u, In u us -> is_base_of u T = true) ->
  well_typed (reflect T) -> (exists b s, In (MStr b s) (pre ++ post)) ->
  (forall y l, In y (pre ++ post) -> tuple_or_array y l -> ~ any_record_list (base_of is_base_of T) y l /\ ~ any_list (base_of is_base_of T) y l) ->
  bases is_base_of is_class reflect T = Ok (Some (map MBase us)).
Proof.
  intros ib ic reflect T pre us post E Hne Hu W [b [s Hs]] Hy. apply C41_bases_forms; [assumption|]. rewrite E in *.
  assert (Sin : In (MStr b s) (pre ++ MTuple (map MBase us) :: post)) by (apply in_app_or in Hs; apply in_or_app; cbn; tauto).
  assert (Nm : forall (Q : md -> Prop) l, (forall b s, ~ Q (MStr b s)) -> ~ any_list Q (MTuple (pre ++ MTuple (map MBase us) :: post)) l).
  { intros Q l HQ [[El|[r El]] F]; [|discriminate]. injection El as <-. apply (HQ b s). apply (proj1 (Forall_forall _ _) F). assumption. }
  apply listing_plain with (MTuple (map MBase us)).
  - split.
    + intros [l Hl]. revert Hl. apply Nm. intros b' s' [y [_ [l' [K|[r K]]]]]; discriminate.
    + intros l x [El|[r El]] Hx [l' Hl']; [|discriminate]. injection El as <-. apply in_app_or in Hx. cbn in Hx.
      assert (D : x = MTuple (map MBase us) \/ In x (pre ++ post)) by (rewrite in_app_iff; intuition congruence). destruct D as [->|D].
      * destruct Hl' as [[K|[r K]] F]; [|discriminate]. injection K as <-. destruct us as [|u us]; [congruence|].
        cbn in F. inversion F as [|? ? [y [_ [l'' [K|[r K]]]]] _]; discriminate.
      * destruct (Hy x l' D (proj1 Hl')) as [N _]. contradiction.
  - right. split.
    + intros [l Hl]. revert Hl. apply Nm. intros b' s' [u [K _]]. discriminate.
    + exists (pre ++ MTuple (map MBase us) :: post), pre, post. split; [left; reflexivity|]. split; [reflexivity|]. split.
      * exists (map MBase us). split; [left; reflexivity|]. apply Forall_forall. intros x Hx. apply in_map_iff in Hx. destruct Hx as [u [<- Hin]].
        exists u. auto.
      * intros y Hy' [l Hl]. destruct (Hy y l (in_or_app _ _ _ (or_introl Hy')) (proj1 Hl)) as [_ N]. contradiction.
  - split; [left; reflexivity|]. apply Forall_forall. intros x Hx. apply in_map_iff in Hx. destruct Hx as [u [<- Hin]]. exists u. auto.
Qed.
Print Assumptions C41_bases_in_order.

(** Class 5 with bases 3 and 2 in this order; one base record; one tag; an unrelated class tag is not a base. *)
Definition forms (k T : nat) : md :=
  match k with
  | 0 => MTuple [MStr true (lit "E"); MTuple [MBase 3; MBase 2]]
  | 1 => MTuple [MStr true (lit "E"); MTuple [MBase 3; MStr true (lit "b")]; MBase 2]
  | 2 => MTuple [MStr true (lit "E"); MBase 9; MBase 2; MBase 3]
  | 3 => MTuple [MStr true (lit "E"); MTuple [MTuple [MBase 2; MOther 0]; MTuple [MBase 1]]; MTuple [MBase 3; MBase 2]]
  | 4 => MTuple [MStr true (lit "E"); MTuple [MMember 5 0 1; MMember 5 1 0]]
  | 5 => MTuple [MStr true (lit "E"); MTuple [MMember 5 0 1; MStr true (lit "m")]]
  | _ => MTuple [MStr true (lit "E"); MMember 5 0 1; MMember 4 0 1]
  end.
Example C41_forms :
  bases derives all_classes (forms 0) 5 = Ok (Some [MBase 3; MBase 2]) /\
  bases derives all_classes (forms 1) 5 = Ok (Some [MBase 3]) /\
  bases derives all_classes (forms 2) 5 = Ok (Some [MBase 2]) /\
  bases derives all_classes (forms 3) 5 = Ok (Some [MBase 2; MBase 1]) /\
  bases derives all_classes (forms 4) 5 = Ok (Some []) /\ bases derives (fun _ => false) (forms 4) 5 = Ok None /\
  exclusive_members all_classes (forms 4) 5 = Ok (Some [MMember 5 0 1; MMember 5 1 0]) /\
  exclusive_members all_classes (forms 5) 5 = Ok (Some [MMember 5 0 1]) /\
  exclusive_members all_classes (forms 6) 5 = Ok (Some [MMember 5 0 1]) /\
  exclusive_members all_classes (forms 0) 5 = Ok (Some []).
Proof. repeat split. Qed.
Example C41_in_order : let pre := [MStr true (lit "E")] in
  forms 0 5 = MTuple (pre ++ MTuple (map MBase [3; 2]) :: []) /\ well_typed (forms 0 5) /\
  (forall u, In u [3; 2] -> derives u 5 = true) /\ (forall y l, In y (pre ++ []) -> ~ tuple_or_array y l).
Proof.
  cbn zeta. split; [reflexivity|]. split; [repeat constructor|]. split; [intros u [<-|[<-|[]]]; reflexivity|].
  intros y l [<-|[]] [E|[r E]]; discriminate.
Qed.

(** * C42 *)
(** Missing: as for C42_member_names_partial. *)
Theorem C42_member_descriptions_partial : forall is_base_of is_class reflect T bs fuel,
  bases_are is_base_of is_class reflect T bs -> (exists rs, labelled reflect 1 T rs) ->
  (forall b, In b bs -> bases_are is_base_of is_class reflect b [] /\ exists rs, labelled reflect 1 b rs) -> 2 <= fuel ->
  exists ms ds,
    Forall2 (fun m d => exists C rs r, (C = T \/ In C bs) /\ labelled reflect 1 C rs /\ member_of C m /\
               In r rs /\ record_about r m /\ record_description r d) ms ds /\
    ((Z.of_nat (length ms) < size_t_modulus)%Z ->
     members is_base_of is_class reflect fuel T = Ok (Some ms) /\
     member_descriptions is_base_of is_class reflect T = Ok (Some (map (MStr false) ds))).
Proof.
  intros ib ic reflect T bs fuel Hb HT HB Hf. destruct (members_labels_aligned ib ic reflect 1 T bs fuel Hb HT HB Hf) as [ms [ds [F G]]].
  exists ms, ds. split; [|exact G]. eapply Forall2_impl_in; [|exact F]. intros m d _ [C [rs [H1 [H2 [H3 [r H4]]]]]]. exists C, rs, r. tauto.
Qed.
Print Assumptions C42_member_descriptions_partial.

(** Within one class there is no restriction: names and descriptions of its own members are aligned with these members, and
    are not available if and only if some record has none. *)
Theorem C42_exclusive_labels : forall is_class reflect T rs, well_typed (reflect T) -> lists_records (member_of T) (reflect T) rs ->
  (forall x, x = reflect T \/ In x (elements (reflect T)) -> record_list (member_of T) x rs -> not_array x) ->
  (exists ms, exclusive_members is_class reflect T = Ok (Some ms) /\ Forall2 (fun r m => member_of T m /\ record_about r m) rs ms) /\
  ((exists ns, exclusive_member_names is_class reflect T = Ok (Some (map (MStr false) ns)) /\ Forall2 record_name rs ns) \/
   (exclusive_member_names is_class reflect T = Ok None /\ exists r, In r rs /\ forall n, ~ record_name r n)) /\
  ((exists ds, exclusive_member_descriptions is_class reflect T = Ok (Some (map (MStr false) ds)) /\ Forall2 record_description rs ds) \/
   (exclusive_member_descriptions is_class reflect T = Ok None /\ exists r, In r rs /\ forall n, ~ record_description r n)).
Proof.
  intros ic reflect T rs W H Na. split; [apply members_of_records; assumption|]. split.
  - destruct (member_strings_of_records ic T 0 (reflect T) rs W H) as [G|[G [r [G1 G2]]]]; [left; exact G|].
    right. split; [assumption|]. exists r. split; [assumption|]. intros n Hn. unfold record_name in Hn. congruence.
  - destruct (member_strings_of_records ic T 1 (reflect T) rs W H) as [G|[G [r [G1 G2]]]]; [left; exact G|].
    right. split; [assumption|]. exists r. split; [assumption|]. intros n Hn. unfold record_description in Hn. congruence.
Qed.
Print Assumptions C42_exclusive_labels.

Definition described_classes (T : nat) : md :=
  match T with
  | 0 => MTuple [MStr true (lit "A"); MTuple [MTuple [MMember 0 0 0; MStr true (lit "a"); MStr true (lit "first")]]]
  | 1 => MTuple [MStr true (lit "B"); MBase 0; MTuple [MTuple [MMember 1 0 0; MStr true (lit "b"); MOther 0; MStr true (lit "second")]]]
  | _ => MNullopt
  end.
Example C42_descriptions : let r := described_classes in
  labelled r 1 0 [MTuple [MMember 0 0 0; MStr true (lit "a"); MStr true (lit "first")]] /\
  bases_are derives all_classes r 1 [0] /\ bases_are derives all_classes r 0 [] /\
  members derives all_classes r 2 1 = Ok (Some [MMember 0 0 0; MMember 1 0 0]) /\
  exclusive_member_names all_classes r 1 = Ok (Some [MStr false (lit "b")]) /\
  exclusive_member_descriptions all_classes r 1 = Ok (Some [MStr false (lit "second")]) /\
  exclusive_member_descriptions all_classes classes 1 = Ok None /\
  member_names derives all_classes r 1 = Ok (Some [MStr false (lit "a"); MStr false (lit "b")]) /\
  member_descriptions derives all_classes r 1 = Ok (Some [MStr false (lit "first"); MStr false (lit "second")]).
Proof.
  cbn zeta. split; [|repeat split; vm_compute; reflexivity]. split; [repeat constructor|]. split; [|split].
  - right. eexists _, [_], _, []. split; [left; reflexivity|]. split; [reflexivity|]. split.
    + split; [left; reflexivity|]. split; [discriminate|]. repeat constructor; (eexists; split; [do 2 eexists; reflexivity|]; eexists; left; reflexivity).
    + intros y [<-|[]]. split; [intros [E|[? E]]; discriminate|]. intros rs' [[E|[? E]] _]; discriminate.
  - intros x [->|Hx] Hr r l E; [discriminate|]. cbn [described_classes elements In] in Hx. destruct Hx as [<-|[<-|[]]]; discriminate.
  - intros r [<-|[]]; eexists; reflexivity.
Qed.
