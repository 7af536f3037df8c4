(** C84: metadata::extract() and extract_for_...() give the entries of the requested type. *)

From Coq Require Import String ZArith Arith Bool Lia List.
From Verif Require Import Base TupleModel TupleProofs MetaModel MetaSpec MetaProofs MetaProps ExtractModel ExtractSpec ExtractProofs.
Import ListNotations.

(** extract<T, PredT, ...>(): the metadata if they satisfy the predicate, or else the entry in the given position among those
    that do; string literals as views. *)
Theorem C84_extract : forall reflect pred occ const T y, well_typed (reflect const T) ->
  (extract_if reflect pred occ const T = Some y <-> exists x, found (fun M => pred M = true) (reflect const T) occ x /\ as_view x y).
Proof. intros. apply extract_metadata_found. assumption. Qed.
Print Assumptions C84_extract.

(** Enumeration 0 with two values; metadata of type 7 (numbers) and 8 (flags) besides the names. *)
Definition red_green : md :=
  MTuple [MStr true (lit "Colour"); MVal 7 5; MVal 7 6;
    MTuple [MTuple [MVal 0 1; MStr true (lit "red"); MVal 7 10; MVal 7 11]; MTuple [MVal 0 2; MVal 7 20; MStr false (lit "green"); MVal 7 21; MVal 8 1]]].
Definition number_type (M : mty) : bool := mty_eqb M (TVal 7).
Definition colours (const : bool) (T : nat) : md := if const then MNullopt else match T with 0 => red_green | _ => MNullopt end.
(** Numbers (7) convert to wide numbers (9), unscoped enumeration 0 to numbers; views are not literals. *)
Definition conversions (M V : mty) : option (md -> md) :=
  match M, V with
  | TVal 7, TVal 9 => Some (fun m => match m with MVal _ v => MVal 9 v | m => m end)
  | TVal 0, TVal 7 => Some (fun m => match m with MVal _ v => MVal 7 v | m => m end)
  | _, _ => None
  end.
Example C84_extract_example : well_typed red_green /\
  extract_if colours number_type 0 false 0 = Some (MVal 7 5) /\ extract_if colours number_type 1 false 0 = Some (MVal 7 6) /\
  extract_if colours number_type 2 false 0 = None /\ extract_if colours is_string 0 false 0 = Some (MStr false (lit "Colour")).
Proof. split; [repeat constructor|]. vm_compute. repeat split. Qed.

(** extract<T, V>(): the entry of type V. *)
Theorem C84_extract_as : forall reflect convert V occ const T x, well_typed (reflect const T) -> V <> TStr true ->
  found (fun M => M = V) (reflect const T) occ x -> extract_as reflect convert V occ const T = Ok x.
Proof.
  intros reflect convert V occ const T x W N F. unfold extract_as.
  assert (F' : found (fun M => mty_eqb M V = true) (reflect const T) occ x).
  { destruct F as [A [[O [H ->]]|[H [l [Hl O]]]]]; (split; [assumption|]).
    - left. repeat split; [assumption|apply mty_eqb_spec; assumption].
    - right. split; [rewrite mty_eqb_spec; assumption|]. exists l. split; [assumption|].
      apply (occurrence_filter _ _ (fun y => mty_eqb (type_of y) V)); [intro; reflexivity|].
      apply (occurrence_filter _ _ (fun y => mty_eqb (type_of y) V)) in O; [assumption|]. intro. symmetry. apply mty_eqb_spec. }
  assert (Tx : type_of x = V).
  { destruct F as [_ [[_ [H ->]]|[_ [l [_ [pre [post [_ [H _]]]]]]]]]; assumption. }
  assert (E : extract_metadata (fun M => mty_eqb M V) occ (reflect const T) = Some x).
  { apply extract_metadata_found; [assumption|]. exists x. split; [assumption|]. right. split; [|reflexivity]. intros s ->. cbn in Tx. congruence. }
  rewrite E. apply init_from_ok. left. auto.
Qed.
Print Assumptions C84_extract_as.
Example C84_extract_as_example : found (fun M => M = TVal 7) (colours false 0) 1 (MVal 7 6) /\
  extract_as colours conversions (TVal 7) 1 false 0 = Ok (MVal 7 6) /\ extract_as colours conversions (TVal 8) 0 false 0 = IllFormed.
Proof.
  split; [|split; vm_compute; reflexivity]. split; [discriminate|]. right. split; [intros [E _]; discriminate|].
  exists (elements red_green). split; [left; reflexivity|]. exists [MStr true (lit "Colour"); MVal 7 5]. eexists.
  split; [reflexivity|]. split; [reflexivity|]. apply number_no; [discriminate|]. apply number_yes; [reflexivity|]. apply number_nil.
Qed.

(** If there is none, extract<T, V>() does not compile (unless nullopt converts to V). *)
Theorem C84_extract_as_absent : forall reflect convert V occ const T, well_typed (reflect const T) -> convert TNullopt V = None -> V <> TNullopt ->
  (forall x, ~ found (fun M => M = V) (reflect const T) occ x) -> extract_as reflect convert V occ const T = IllFormed.
Proof.
  intros reflect convert V occ const T W C N A. unfold extract_as.
  destruct (extract_metadata _ _ _) as [y|] eqn:E.
  - apply extract_metadata_found in E; [|assumption]. destruct E as [x [F _]]. destruct (A x).
    destruct F as [Av [[O [H ->]]|[H [l [Hl O]]]]]; (split; [assumption|]).
    + left. repeat split; [assumption|apply mty_eqb_spec; assumption].
    + right. split; [rewrite mty_eqb_spec in H; assumption|]. exists l. split; [assumption|].
      apply (occurrence_filter _ _ (fun y => mty_eqb (type_of y) V)); [intro; symmetry; apply mty_eqb_spec|].
      apply (occurrence_filter _ _ (fun y => mty_eqb (type_of y) V)) in O; [assumption|]. intro. reflexivity.
  - unfold init_from. cbn [type_of]. destruct (mty_eqb TNullopt V) eqn:Q; [apply mty_eqb_spec in Q; congruence|]. rewrite C. reflexivity.
Qed.
Print Assumptions C84_extract_as_absent.

(** Asking for string literals themselves never compiles, whether there are any or not. *)
Theorem C84_literal_rejected : forall reflect convert occ const T, well_typed (reflect const T) ->
  convert (TStr false) (TStr true) = None -> convert TNullopt (TStr true) = None ->
  extract_as reflect convert (TStr true) occ const T = IllFormed.
Proof.
  intros reflect convert occ const T W C1 C2. unfold extract_as. destruct (extract_metadata _ _ _) as [y|] eqn:E.
  - apply extract_metadata_found in E; [|assumption]. destruct E as [x [F V]].
    assert (Tx : type_of x = TStr true).
    { destruct F as [_ [[_ [H ->]]|[_ [l [_ [pre [post [_ [H _]]]]]]]]]; apply mty_eqb_spec in H; assumption. }
    destruct x as [b s| | | | | | |]; try discriminate. cbn in Tx. injection Tx as ->. apply as_view_promote in V. subst y.
    unfold init_from. cbn [promote type_of mty_eqb Bool.eqb]. rewrite C1. reflexivity.
  - unfold init_from. cbn [type_of mty_eqb]. rewrite C2. reflexivity.
Qed.
Print Assumptions C84_literal_rejected.

(** So extract<T, char const*>() does not return a string literal that the metadata hold. *)
Theorem C84_literal_refuted : exists reflect convert T x, well_typed (reflect false T) /\
  found (fun M => M = TStr true) (reflect false T) 0 x /\ extract_as reflect convert (TStr true) 0 false T = IllFormed.
Proof.
  exists colours, conversions, 0, (MStr true (lit "Colour")). split; [repeat constructor|]. split; [|vm_compute; reflexivity].
  split; [discriminate|]. right. split; [intros [_ E]; discriminate|]. exists (elements red_green). split; [left; reflexivity|].
  exists []. eexists. split; [reflexivity|]. split; [reflexivity|constructor].
Qed.
Print Assumptions C84_literal_refuted.

(** And extract<T, std::string_view>() does not find them, although name() returns them as std::string_view. *)
Theorem C84_view_refuted : exists reflect convert T s, well_typed (reflect false T) /\
  name_of reflect false T = Some (MStr false s) /\ extract_as reflect convert (TStr false) 0 false T = IllFormed.
Proof. exists colours, conversions, 0, (lit "Colour"). split; [repeat constructor|]. vm_compute. auto. Qed.
Print Assumptions C84_view_refuted.

(** extract_for_values<T, V, PredT, ...>(): for every value record its entry, converted to V; unavailable if one of them has none. *)
Theorem C84_for_values : forall reflect convert V pred occ const T rs, well_typed (reflect const T) -> lists_records (value_of T) (reflect const T) rs ->
  (forall ys, extract_for_values reflect convert V pred occ const T = Ok (Some ys) <-> Forall2 (says convert (fun M => pred M = true) occ V) rs ys) /\
  (extract_for_values reflect convert V pred occ const T = Ok None <-> exists r, In r rs /\ silent (fun M => pred M = true) occ r) /\
  ((forall r, In r rs -> ~ silent (fun M => pred M = true) occ r) -> (exists r, In r rs /\ forall y, ~ says convert (fun M => pred M = true) occ V r y) ->
   extract_for_values reflect convert V pred occ const T = IllFormed).
Proof.
  intros reflect convert V pred occ const T rs W L. assert (R := values_result convert pred occ V T (reflect const T) rs W L).
  split; [intro ys; eapply column_result_some; exact R|]. split; [eapply column_result_none; exact R|].
  intros N [r [Hr S]]. unfold extract_for_values. destruct R as [[ys [_ F]]|[[_ [r' [Hr' S']]]|[-> _]]]; [|destruct (N r' Hr' S')|reflexivity].
  exfalso. clear - F Hr S. induction F as [|a b l1 l2 C F IH]; [destruct Hr|]. destruct Hr as [->|Hr]; [exact (S b C)|auto].
Qed.
Print Assumptions C84_for_values.

(** They are aligned with values(). *)
Theorem C84_values_aligned : forall reflect convert V pred occ T rs ys, well_typed (reflect false T) -> lists_records (value_of T) (reflect false T) rs ->
  extract_for_values reflect convert V pred occ false T = Ok (Some ys) ->
  exists vs, (forall const, values_of reflect const T = Ok (Some (map (MVal T) vs))) /\ length vs = length ys /\
    forall i v y, nth_error vs i = Some v -> nth_error ys i = Some y ->
      exists r, nth_error rs i = Some r /\ record_about r (MVal T v) /\ says convert (fun M => pred M = true) occ V r y.
Proof.
  intros reflect convert V pred occ T rs ys W L E. apply (proj1 (C84_for_values reflect convert V pred occ false T rs W L)) in E.
  destruct (values_of_records T (reflect false T) rs W L) as [vs [E1 F]]. exists vs. split; [intro c; exact E1|].
  split; [assert (L1 := Forall2_length E); assert (L2 := Forall2_length F); lia|].
  clear - E F. revert ys E. induction F as [|r v rs vs R F IH]; intros ys E i v' y Hv Hy; [destruct i; discriminate|].
  inversion E as [|? y0 ? ys' S E']; subst. destruct i as [|i]; cbn in *.
  - injection Hv as <-. injection Hy as <-. exists r. auto.
  - eapply IH; eassumption.
Qed.
Print Assumptions C84_values_aligned.

Definition red_record : md := MTuple [MVal 0 1; MStr true (lit "red"); MVal 7 10; MVal 7 11].
Definition green_record : md := MTuple [MVal 0 2; MVal 7 20; MStr false (lit "green"); MVal 7 21; MVal 8 1].
Lemma red_green_records : lists_records (value_of 0) red_green [red_record; green_record].
Proof.
  right. eexists _, [_; _; _], _, []. split; [left; reflexivity|]. split; [reflexivity|]. split.
  - split; [left; reflexivity|]. split; [discriminate|]. repeat constructor.
    + exists (MVal 0 1). split; [eexists; reflexivity|]. eexists. left. reflexivity.
    + exists (MVal 0 2). split; [eexists; reflexivity|]. eexists. left. reflexivity.
  - intros y [<-|[<-|[<-|[]]]]; (split; [intros [E|[r E]]; discriminate|]); intros rs' [[E|[r E]] _]; discriminate.
Qed.
(** The names of the values, and the numbers, wherever they are in the records. *)
Example C84_for_values_example : well_typed (colours false 0) /\ lists_records (value_of 0) (colours false 0) [red_record; green_record] /\
  extract_for_values_as colours conversions (TVal 7) 0 false 0 = Ok (Some [MVal 7 10; MVal 7 20]) /\
  extract_for_values_as colours conversions (TVal 7) 1 false 0 = Ok (Some [MVal 7 11; MVal 7 21]) /\
  extract_for_values colours conversions (TVal 9) number_type 1 false 0 = Ok (Some [MVal 9 11; MVal 9 21]) /\
  extract_for_values_as colours conversions (TVal 8) 0 false 0 = Ok None /\
  extract_for_values colours conversions (TVal 8) number_type 0 false 0 = IllFormed /\
  extract_for_values colours conversions (TStr false) is_string 0 false 0 = Ok (Some [MStr false (lit "red"); MStr false (lit "green")]).
Proof. split; [repeat constructor|]. split; [exact red_green_records|]. vm_compute. repeat split. Qed.

(** The value itself counts: if its type satisfies the predicate, the values are what is extracted. *)
Theorem C84_value_first : forall reflect convert V pred const T rs ys, well_typed (reflect const T) -> lists_records (value_of T) (reflect const T) rs ->
  pred (TVal T) = true -> extract_for_values reflect convert V pred 0 const T = Ok (Some ys) ->
  Forall2 (fun r y => exists v, record_about r (MVal T v) /\ converted convert V (MVal T v) y) rs ys.
Proof.
  intros reflect convert V pred const T rs ys W L Hp E. apply (proj1 (C84_for_values reflect convert V pred 0 const T rs W L)) in E.
  destruct (values_of_records T (reflect const T) rs W L) as [vs [_ F]]. clear W L. revert ys E.
  induction F as [|r v rs vs R F IH]; intros ys E; inversion E as [|? y ? ys' S E']; subst; constructor; [|auto].
  exists v. split; [assumption|]. destruct S as [x [w [O [A C]]]]. destruct R as [l Hl].
  replace (elements r) with (MVal T v :: l) in O by (destruct Hl as [->|[t ->]]; reflexivity).
  apply (occurrence_filter _ _ (fun x => pred (type_of x))) in O; [|intro; reflexivity]. cbn [filter type_of] in O. rewrite Hp in O.
  injection O as <-. apply as_view_promote in A. subst w. exact C.
Qed.
Print Assumptions C84_value_first.

(** So extract_for_values<E, int, std::is_convertible, int>() on an unscoped enumeration yields the values and not the numbers given
    in their records. *)
Theorem C84_value_first_refuted : exists reflect convert (pred : mty -> bool) T rs, well_typed (reflect false T) /\ lists_records (value_of T) (reflect false T) rs /\
  (forall M, pred M = true <-> M = TVal 7 \/ exists f, convert M (TVal 7) = Some f) /\
  (forall r, In r rs -> exists v n rest, r = MTuple (MVal T v :: MVal 7 n :: rest) /\ v <> n) /\
  exists vs, values_of reflect false T = Ok (Some (map (MVal T) vs)) /\
    extract_for_values reflect convert (TVal 7) pred 0 false T = Ok (Some (map (MVal 7) vs)).
Proof.
  exists (fun _ _ => MTuple [MTuple [MVal 0 1; MVal 7 10]; MTuple [MVal 0 2; MVal 7 20]]), conversions,
    (fun M => mty_eqb M (TVal 7) || mty_eqb M (TVal 0)), 0, [MTuple [MVal 0 1; MVal 7 10]; MTuple [MVal 0 2; MVal 7 20]].
  split; [repeat constructor|]. split; [|split; [|split]].
  - left. split; [left; reflexivity|]. split; [discriminate|]. repeat constructor.
    + exists (MVal 0 1). split; [eexists; reflexivity|]. eexists. left. reflexivity.
    + exists (MVal 0 2). split; [eexists; reflexivity|]. eexists. left. reflexivity.
  - intro M. rewrite orb_true_iff, !mty_eqb_spec. split; (intros [H|H]; [left; exact H|]).
    + subst M. right. eexists. reflexivity.
    + destruct H as [f H]. destruct M as [|t| | | | | |]; try discriminate. destruct t as [|t]; [right; reflexivity|].
      do 7 (destruct t as [|t]; [discriminate|]); discriminate.
  - intros r [<-|[<-|[]]]; eexists _, _, []; (split; [reflexivity|discriminate]).
  - exists [1; 2]%Z. split; vm_compute; reflexivity.
Qed.
Print Assumptions C84_value_first_refuted.

(** extract_for_exclusive_members<>(): likewise for the member records. *)
Theorem C84_for_exclusive_members : forall is_class reflect convert V pred occ const T rs, well_typed (reflect const T) -> lists_records (member_of T) (reflect const T) rs ->
  (forall ys, extract_for_exclusive_members is_class reflect convert V pred occ const T = Ok (Some ys) <-> Forall2 (says convert (fun M => pred M = true) occ V) rs ys) /\
  (extract_for_exclusive_members is_class reflect convert V pred occ const T = Ok None <-> exists r, In r rs /\ silent (fun M => pred M = true) occ r) /\
  ((forall r, In r rs -> ~ silent (fun M => pred M = true) occ r) -> (exists r, In r rs /\ forall y, ~ says convert (fun M => pred M = true) occ V r y) ->
   extract_for_exclusive_members is_class reflect convert V pred occ const T = IllFormed).
Proof.
  intros is_class reflect convert V pred occ const T rs W L. assert (R := members_result convert pred occ V is_class T (reflect const T) rs W L).
  split; [intro ys; eapply column_result_some; exact R|]. split; [eapply column_result_none; exact R|].
  intros N [r [Hr S]]. unfold extract_for_exclusive_members. destruct R as [[ys [_ F]]|[[_ [r' [Hr' S']]]|[-> _]]]; [|destruct (N r' Hr' S')|reflexivity].
  exfalso. clear - F Hr S. induction F as [|a b l1 l2 C F IH]; [destruct Hr|]. destruct Hr as [->|Hr]; [exact (S b C)|auto].
Qed.
Print Assumptions C84_for_exclusive_members.

(** extract_for_members<>(): those of the records of the direct bases, in order, and then those of the class's own. *)
Theorem C84_for_members : forall is_base_of is_class reflect convert V pred occ T bs rs rss,
  bases is_base_of is_class (reflect false) T = Ok (Some (map MBase bs)) ->
  (well_typed (reflect false T) /\ lists_records (member_of T) (reflect false T) rs) ->
  Forall2 (fun b rb => well_typed (reflect false b) /\ lists_records (member_of b) (reflect false b) rb) bs rss ->
  (Z.of_nat (length (concat rss ++ rs)) < size_t_modulus)%Z ->
  (forall ys, extract_for_members is_base_of is_class reflect convert V pred occ T = Ok (Some ys) <->
     Forall2 (says convert (fun M => pred M = true) occ V) (concat rss ++ rs) ys) /\
  (extract_for_members is_base_of is_class reflect convert V pred occ T = Ok None <-> exists r, In r rs /\ silent (fun M => pred M = true) occ r) /\
  ((forall r, In r rs -> ~ silent (fun M => pred M = true) occ r) ->
   (exists r, In r (concat rss ++ rs) /\ forall y, ~ says convert (fun M => pred M = true) occ V r y) ->
   extract_for_members is_base_of is_class reflect convert V pred occ T = IllFormed).
Proof.
  intros ib ic reflect convert V pred occ T bs rs rss Hb HT HB Hs.
  assert (R := all_members_result ib ic reflect convert pred occ V T bs rs rss Hb HT HB Hs).
  assert (Fin : forall l ys r, Forall2 (says convert (fun M => pred M = true) occ V) l ys -> In r l -> exists y, says convert (fun M => pred M = true) occ V r y).
  { intros l ys r F. induction F as [|a b l1 l2 S F IH]; intro I; [destruct I|]. destruct I as [->|I]; eauto. }
  split; [|split].
  - intro ys. destruct R as [[zs [-> F]]|[[-> [r [Hr S]]]|[-> [_ [r [Hr S]]]]]]; split; intro E; try discriminate.
    + injection E as <-. assumption.
    + do 2 f_equal. exact (Forall2_says_unique convert pred occ V _ _ _ F E).
    + destruct (Fin _ _ r E) as [y Sy]; [apply in_or_app; right; assumption|]. destruct (says_not_silent convert pred occ V r y Sy S).
    + destruct (Fin _ _ r E Hr) as [y Sy]. destruct (S y Sy).
  - destruct R as [[zs [-> F]]|[[-> S]|[-> [N _]]]]; split; intro E; try discriminate; try reflexivity; try assumption.
    + destruct E as [r [Hr S]]. destruct (Fin _ _ r F) as [y Sy]; [apply in_or_app; right; assumption|]. destruct (says_not_silent convert pred occ V r y Sy S).
    + destruct E as [r [Hr S]]. destruct (N r Hr S).
  - intros N [r [Hr S]]. destruct R as [[zs [-> F]]|[[-> [r' [Hr' S']]]|[-> _]]]; [|destruct (N r' Hr' S')|reflexivity].
    destruct (Fin _ _ r F Hr) as [y Sy]. destruct (S y Sy).
Qed.
Print Assumptions C84_for_members.

(** struct A { a0, a1 }; struct B : A { b }, with numbers in the member records; class 3 lacks one. *)
Definition member_number (c i : nat) (n : Z) : md := MTuple [MMember c 0 i; MVal 7 n].
Definition measured (const : bool) (T : nat) : md :=
  if const then MNullopt else
  match T with
  | 0 => MTuple [MStr true (lit "A"); MTuple [member_number 0 0 100; member_number 0 1 101]]
  | 1 => MTuple [MStr true (lit "B"); MBase 0; MTuple [member_number 1 0 200]]
  | 2 => MTuple [MStr true (lit "C"); MBase 1; MTuple [member_number 2 0 300]]
  | 3 => MTuple [MStr true (lit "D"); MBase 0; MTuple [MTuple [MMember 3 0 0; MStr true (lit "d")]]]
  | _ => MNullopt
  end.
Example C84_for_members_example :
  bases derives all_classes (measured false) 1 = Ok (Some (map MBase [0])) /\
  lists_records (member_of 1) (measured false 1) [member_number 1 0 200] /\
  lists_records (member_of 0) (measured false 0) [member_number 0 0 100; member_number 0 1 101] /\
  extract_for_exclusive_members_as all_classes measured conversions (TVal 7) 0 false 1 = Ok (Some [MVal 7 200]) /\
  extract_for_members_as derives all_classes measured conversions (TVal 7) 0 1 = Ok (Some [MVal 7 100; MVal 7 101; MVal 7 200]) /\
  extract_for_members derives all_classes measured conversions (TVal 9) number_type 0 1 = Ok (Some [MVal 9 100; MVal 9 101; MVal 9 200]) /\
  extract_for_members_as derives all_classes measured conversions (TVal 7) 0 3 = Ok None /\
  extract_for_members_as derives all_classes measured conversions (TVal 7) 1 1 = Ok None /\
  extract_for_members derives all_classes measured conversions (TStr false) is_string 0 3 = IllFormed.
Proof.
  split; [vm_compute; reflexivity|]. split; [|split; [|vm_compute; repeat split]].
  - right. eexists _, [_; _], _, []. split; [left; reflexivity|]. split; [reflexivity|]. split.
    + split; [left; reflexivity|]. split; [discriminate|]. repeat constructor.
      exists (MMember 1 0 0). split; [eexists _, _; reflexivity|]. eexists. left. reflexivity.
    + intros y [<-|[<-|[]]]; (split; [intros [E|[r E]]; discriminate|]); intros rs' [[E|[r E]] _]; discriminate.
  - right. eexists _, [_], _, []. split; [left; reflexivity|]. split; [reflexivity|]. split.
    + split; [left; reflexivity|]. split; [discriminate|]. repeat constructor.
      * exists (MMember 0 0 0). split; [eexists _, _; reflexivity|]. eexists. left. reflexivity.
      * exists (MMember 0 0 1). split; [eexists _, _; reflexivity|]. eexists. left. reflexivity.
    + intros y [<-|[]]; (split; [intros [E|[r E]]; discriminate|]); intros rs' [[E|[r E]] _]; discriminate.
Qed.

(** Indirect bases are not covered (unlike in members()). *)
Theorem C84_for_members_refuted : exists is_base_of is_class reflect convert V T ms ys,
  members is_base_of is_class (reflect false) 3 T = Ok (Some ms) /\
  extract_for_members_as is_base_of is_class reflect convert V 0 T = Ok (Some ys) /\ List.length ys < List.length ms /\
  forall C, C < 3 -> exists ws, extract_for_exclusive_members_as is_class reflect convert V 0 false C = Ok (Some ws) /\ ws <> [].
Proof.
  exists derives, all_classes, measured, conversions, (TVal 7), 2, [MMember 0 0 0; MMember 0 0 1; MMember 1 0 0; MMember 2 0 0], [MVal 7 200; MVal 7 300].
  split; [vm_compute; reflexivity|]. split; [vm_compute; reflexivity|]. split; [cbn; lia|].
  intros [|[|[|C]]] H; [| | |lia]; (eexists; split; [vm_compute; reflexivity|discriminate]).
Qed.
Print Assumptions C84_for_members_refuted.

(** name() and description() are the first and the second string; the descriptions of values and members are the second strings of
    their records. *)
Theorem C84_name : forall reflect const T l, well_typed (reflect const T) -> tuple_or_array (reflect const T) l ->
  name_of reflect const T = option_map (MStr false) (nth_error (strings l) 0) /\
  description_of reflect const T = option_map (MStr false) (nth_error (strings l) 1).
Proof. intros reflect const T l W H. split; apply extract_string_tuple; assumption. Qed.
Print Assumptions C84_name.

Lemma says_description : forall convert occ r y,
  says convert (fun M => is_string M = true) occ (TStr false) r y <-> exists n, nth_error (strings (elements r)) occ = Some n /\ y = MStr false n.
Proof.
  intros convert occ r y.
  assert (F : nth_error (map (MStr false) (strings (elements r))) occ = option_map promote (nth_error (filter (fun x => is_string (type_of x)) (elements r)) occ))
    by (rewrite <- filter_strings, nth_error_map_opt; reflexivity).
  rewrite nth_error_map_opt in F. split.
  - intros [x [v [O [A C]]]]. assert (Sx : is_string (type_of x) = true) by (destruct O as [? [? [_ [H _]]]]; exact H).
    apply (occurrence_filter _ _ (fun x => is_string (type_of x))) in O; [|intro; reflexivity]. rewrite O in F.
    destruct (nth_error (strings (elements r)) occ) as [n|]; [|discriminate]. exists n. split; [reflexivity|].
    apply as_view_promote in A. subst v. cbn in F. injection F as F. rewrite <- F in C. destruct C as [[_ ->]|[N _]]; [reflexivity|]. destruct (N eq_refl).
  - intros [n [E ->]]. rewrite E in F. destruct (nth_error (filter _ _) occ) as [x|] eqn:O; [|discriminate]. exists x, (promote x).
    split; [apply (occurrence_filter _ _ (fun x => is_string (type_of x))); [intro; reflexivity|assumption]|].
    split; [apply as_view_promote; reflexivity|]. cbn in F. injection F as F. rewrite <- F. left. split; reflexivity.
Qed.

Lemma Forall2_iff : forall A B (R S : A -> B -> Prop) l l', (forall a b, R a b <-> S a b) -> (Forall2 R l l' <-> Forall2 S l l').
Proof. intros A B R S l l' H. split; intro F; induction F; constructor; try assumption; apply H; assumption. Qed.

Theorem C84_descriptions : forall is_class reflect convert const T rs ys, well_typed (reflect const T) ->
  (lists_records (value_of T) (reflect const T) rs ->
   (value_descriptions_of reflect convert const T = Ok (Some ys) <-> Forall2 (fun r y => exists n, record_description r n /\ y = MStr false n) rs ys)) /\
  (lists_records (member_of T) (reflect const T) rs ->
   (exclusive_member_descriptions_of is_class reflect convert const T = Ok (Some ys) <-> Forall2 (fun r y => exists n, record_description r n /\ y = MStr false n) rs ys)).
Proof.
  intros is_class reflect convert const T rs ys W. split; intro L.
  - unfold value_descriptions_of. rewrite (proj1 (C84_for_values reflect convert (TStr false) is_string 1 const T rs W L) ys).
    apply Forall2_iff. intros; apply says_description.
  - unfold exclusive_member_descriptions_of. rewrite (proj1 (C84_for_exclusive_members is_class reflect convert (TStr false) is_string 1 const T rs W L) ys).
    apply Forall2_iff. intros; apply says_description.
Qed.
Print Assumptions C84_descriptions.

(** member_descriptions(): those of the direct bases first. *)
Theorem C84_member_descriptions : forall is_base_of is_class reflect convert const T bs rs rss ys,
  bases is_base_of is_class (reflect false) T = Ok (Some (map MBase bs)) ->
  (well_typed (reflect false T) /\ lists_records (member_of T) (reflect false T) rs) ->
  Forall2 (fun b rb => well_typed (reflect false b) /\ lists_records (member_of b) (reflect false b) rb) bs rss ->
  (Z.of_nat (List.length (concat rss ++ rs)) < size_t_modulus)%Z ->
  (member_descriptions_of is_base_of is_class reflect convert const T = Ok (Some ys) <->
   Forall2 (fun r y => exists n, record_description r n /\ y = MStr false n) (concat rss ++ rs) ys).
Proof.
  intros ib ic reflect convert const T bs rs rss ys Hb HT HB Hs. unfold member_descriptions_of.
  rewrite (proj1 (C84_for_members ib ic reflect convert (TStr false) is_string 1 T bs rs rss Hb HT HB Hs) ys).
  apply Forall2_iff. intros; apply says_description.
Qed.
Print Assumptions C84_member_descriptions.

(** The names are those of C39 and C40. *)
Theorem C84_names : forall is_class reflect const T,
  value_names_of reflect const T = value_names (reflect false) T /\ values_of reflect const T = values (reflect false) T /\
  exclusive_member_names_of is_class reflect const T = exclusive_member_names is_class (reflect false) T /\
  exclusive_members_of is_class reflect const T = exclusive_members is_class (reflect false) T.
Proof. intros. repeat split. Qed.
Print Assumptions C84_names.

(** Values, members, and their names do not depend on whether the type is const-qualified. *)
Theorem C84_const_irrelevant : forall is_base_of is_class reflect convert T,
  values_of reflect true T = values_of reflect false T /\ value_names_of reflect true T = value_names_of reflect false T /\
  exclusive_members_of is_class reflect true T = exclusive_members_of is_class reflect false T /\
  exclusive_member_names_of is_class reflect true T = exclusive_member_names_of is_class reflect false T /\
  member_descriptions_of is_base_of is_class reflect convert true T = member_descriptions_of is_base_of is_class reflect convert false T.
Proof. intros. repeat split. Qed.
Print Assumptions C84_const_irrelevant.

(** But names, bases, and descriptions do: with a reflector that knows the type only without const, a const-qualified enumeration
    has values and value names but neither a name nor value descriptions, and a const-qualified class has members but no bases. *)
Theorem C84_const_refuted : exists is_base_of is_class reflect convert T C,
  (exists vs ns ds n, values_of reflect true T = Ok (Some vs) /\ value_names_of reflect true T = Ok (Some ns) /\
     name_of reflect false T = Some n /\ name_of reflect true T = None /\
     value_descriptions_of reflect convert false T = Ok (Some ds) /\ value_descriptions_of reflect convert true T = Ok None) /\
  (exists ms bs ds, exclusive_members_of is_class reflect true C = Ok (Some ms) /\
     bases_of is_base_of is_class reflect false C = Ok (Some bs) /\ bases_of is_base_of is_class reflect true C = Ok None /\
     exclusive_member_descriptions_of is_class reflect convert false C = Ok (Some ds) /\
     exclusive_member_descriptions_of is_class reflect convert true C = Ok None).
Proof.
  exists derives, all_classes, (fun (const : bool) (T : nat) => if const then MNullopt else
    match T with
    | 5 => MTuple [MStr true (lit "E"); MTuple [MTuple [MVal 5 1; MStr true (lit "a"); MStr true (lit "first")]]]
    | _ => MTuple [MBase 0; MTuple [MTuple [MMember 1 0 0; MStr true (lit "m"); MStr true (lit "member")]]]
    end), conversions, 5, 1.
  split; repeat eexists; vm_compute; reflexivity.
Qed.
Print Assumptions C84_const_refuted.
