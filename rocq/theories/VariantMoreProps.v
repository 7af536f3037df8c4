(** Further properties of variants (C16 - C18, C20, C59, C60): what is rejected at compile time. *)

From Coq Require Import ZArith Arith Bool Lia List.
From Verif Require Import Base TypeSeqModel TypeSeqSpec TypeSeqProofs VariantModel VariantSpec VariantProofs VariantProps.
Import ListNotations.

(** variant_transform() is rejected if the functor returns void for all combinations, or if there are too many of them. *)
Theorem C16_rejected : forall (T : Type) (eq_dec : forall a b : T, {a = b} + {a <> b}) (V S : Type)
    (fres : list T -> option T) (func : S -> list (T * V) -> S * outcome V) alts vs s,
  inhabited_variants alts ->
  (forall ts, combination alts ts -> fres ts = None) \/ (2 ^ 63 - 1 < number_of_combinations alts)%Z ->
  variant_transform eq_dec fres func alts vs s = (s, IllFormed).
Proof.
  intros T eq_dec V S fres func alts vs s Hi H. destruct (C17_well_formed T eq_dec fres alts Hi) as [W [[R E]|E]].
  - exfalso. apply proj1 in W. destruct (W (ex_intro _ R E)) as (H1 & ts & t & H2 & H3).
    destruct H as [H|H]; [rewrite (H ts H2) in H3; discriminate|lia].
  - unfold variant_transform. rewrite E. reflexivity.
Qed.
Print Assumptions C16_rejected.

(** Contract violations in the functor are not masked. *)
Theorem C16_contract : forall (T : Type) (eq_dec : forall a b : T, {a = b} + {a <> b}) (V S : Type)
    (fres : list T -> option T) (func : S -> list (T * V) -> S * outcome V) alts R vs args s s',
  variant_transform_result eq_dec fres alts = Ok R -> holding alts vs args -> func s args = (s', Contract) ->
  variant_transform eq_dec fres func alts vs s = (s', Contract).
Proof.
  intros T eq_dec V S fres func alts R vs args s s' E H F. unfold variant_transform. rewrite E.
  pose proof (C16_visit T V S (nat * V) (fun s args =>
             match fres (map fst args) with
             | None => let '(s', o) := func s args in (s', do _ <- o; Contract)
             | Some t => let '(s', o) := func s args in (s', do x <- o; into_alternative eq_dec t R x)
             end) alts vs args s H) as Q. unfold visit in Q.
  rewrite Q. destruct (fres (map fst args)); rewrite F; reflexivity.
Qed.
Print Assumptions C16_contract.

(** variant_transform_many() is rejected if the functor's result for some combination is not a variant. *)
Theorem C18_rejected : forall (T : Type) (eq_dec : forall a b : T, {a = b} + {a <> b}) (V S : Type)
    (fres : list T -> option (list T)) (func : S -> list (T * V) -> S * outcome (option (nat * V))) alts vs s ts,
  inhabited_variants alts -> combination alts ts -> fres ts = None ->
  variant_transform_many_result eq_dec fres alts = IllFormed /\
  variant_transform_many eq_dec fres func alts vs s = (s, IllFormed).
Proof.
  intros T eq_dec V S fres func alts vs s ts Hi Ht Hn.
  assert (W : variant_transform_many_result eq_dec fres alts = IllFormed).
  { unfold variant_transform_many_result. destruct (Z.leb_spec (number_of_combinations alts) (2 ^ 63 - 1)).
    - destruct (C17_enumeration T alts Hi H) as (cs & idxs & E & _ & _ & _). rewrite E. cbn [bind].
      assert (I : In ts cs) by (apply (combinations_in alts cs Hi E); exact Ht).
      assert (G : forall l acc, In None l -> flatten_variant (T := T) acc l = IllFormed).
      { induction l as [|[v|] l IH]; intros acc J; [destruct J| |reflexivity]. cbn [flatten_variant]. apply IH. destruct J as [J|J]; [discriminate|exact J]. }
      rewrite G; [reflexivity|]. apply in_map_iff. exists ts. split; assumption.
    - rewrite (C17_too_many T alts Hi H). reflexivity. }
  split; [exact W|]. unfold variant_transform_many. rewrite W. reflexivity.
Qed.
Print Assumptions C18_rejected.

(** variant_cast<>() is rejected if some alternative of the source does not occur exactly once in the target. *)
Theorem C60_variant_cast_rejected : forall (T : Type) (eq_dec : forall a b : T, {a = b} + {a <> b}) (V : Type) (dst src : list T) (v : option (nat * V)) t,
  In t src -> (~ exists p, only_position (eq t) dst p) -> variant_cast eq_dec dst src v = IllFormed.
Proof.
  intros T eq_dec V dst src v t I N. unfold variant_cast. replace (castable eq_dec dst src) with false; [reflexivity|].
  symmetry. apply not_true_iff_false. intro A. apply N. apply (proj1 (castable_iff eq_dec dst src) A t I).
Qed.
Print Assumptions C60_variant_cast_rejected.

(** optional_to_variant() is rejected if the variant has std::monostate already, or an alternative twice. *)
Theorem C60_optional_to_variant_rejected : forall (T : Type) (eq_dec : forall a b : T, {a = b} + {a <> b}) (V : Type) mono u ts (o : option (option (nat * V))),
  In mono ts \/ (exists t, In t ts /\ ~ exists p, only_position (eq t) ts p) -> optional_to_variant eq_dec mono u ts o = IllFormed.
Proof.
  intros T eq_dec V mono u ts o H.
  assert (G : exists t, In t ts /\ ~ exists p, only_position (eq t) (with_monostate mono ts) p).
  { destruct H as [H|[t [I N]]].
    - exists mono. split; [exact H|]. intros [p [[t [E1 E2]] U]]. apply In_nth_error in H. destruct H as [q Hq].
      assert (0 = p) by (apply (U 0 mono); reflexivity). assert (S q = p) by (apply (U (S q) mono); [exact Hq|reflexivity]). lia.
    - exists t. split; [exact I|]. intros [p [[t' [E1 E2]] U]]. apply N. apply In_nth_error in I. destruct I as [q Hq]. exists q.
      split; [exists t; split; [exact Hq|reflexivity]|]. intros j w Hj Hw.
      assert (S j = p) by (apply (U (S j) w); assumption). assert (S q = p) by (apply (U (S q) t); [exact Hq|reflexivity]). lia. }
  destruct G as [t [I N]]. unfold optional_to_variant. replace (castable eq_dec (with_monostate mono ts) ts) with false; [reflexivity|].
  symmetry. apply not_true_iff_false. intro A. apply N. apply (proj1 (castable_iff eq_dec _ ts) A t I).
Qed.
Print Assumptions C60_optional_to_variant_rejected.

(** get<I>() of a type sequence. *)
Theorem C20_nth_type : forall (T : Type) (ts : list T) n,
  (forall t, nth_type n ts = Ok t <-> nth_error ts n = Some t) /\ (nth_type n ts = IllFormed <-> length ts <= n).
Proof.
  intros T ts n. unfold nth_type. split.
  - intro t. destruct (nth_error ts n); split; congruence.
  - rewrite <- nth_error_None. destruct (nth_error ts n); split; congruence.
Qed.
Print Assumptions C20_nth_type.

Theorem C59_none : forall T : Type, variant_cat (T := T) [] = IllFormed.
Proof. reflexivity. Qed.
Print Assumptions C59_none.

Example C16_rejected_example : inhabited_variants [[1; 2]; [3]] /\
  variant_transform Nat.eq_dec (fun _ => None) (fun (s : nat) args => (S s, Ok 0%Z)) [[1; 2]; [3]] [Some (0, 5%Z); Some (0, 6%Z)] 0 = (0, IllFormed) /\
  variant_transform_many Nat.eq_dec (fun ts => match ts with 2 :: _ => None | _ => Some ts end) (fun (s : nat) args => (S s, Ok (Some (0, 0%Z)))) [[1; 2]; [3]] [Some (0, 5%Z); Some (0, 6%Z)] 0 = (0, IllFormed) /\
  combination [[1; 2]; [3]] [2; 3] /\
  variant_cast Nat.eq_dec [1; 2; 2] [1; 2] (Some (0, 7%Z)) = IllFormed /\
  optional_to_variant Nat.eq_dec 0 0%Z [1; 0] None = IllFormed /\ nth_type 1 [4; 5] = Ok 5 /\ nth_type 2 [4; 5] = IllFormed.
Proof.
  split; [repeat constructor; discriminate|]. split; [reflexivity|]. split; [reflexivity|]. split; [constructor; [cbn; auto|constructor; [cbn; auto|constructor]]|]. repeat split.
Qed.
