(** C106: any_sink and any_source.  C107: iterator tags of zips, for all tag classes. *)

From Coq Require Import NArith Arith Bool List Lia.
From Verif Require Import Base ZipModel SinkModel SinkSpec SinkProofs.
Import ListNotations.

(** * C106 *)

(** Full statement: an overload for any_sink is called exactly if no other overload can be called.

    What is called: the one best overload. *)
Theorem C106_best : forall ks, (forall n, resolve ks = Some n <-> best_of ks n) /\ (resolve ks = None <-> forall n, ~ best_of ks n).
Proof. intro ks. split; [intro n; apply resolve_best|apply resolve_none]. Qed.
Print Assumptions C106_best.

Theorem C106_better : forall k l, better_cand k l = true <->
  exists c, k_conv k = Some c /\
    forall d, k_conv l = Some d -> preferred c d \/ (~ preferred d c /\ more_special (k_template k) (k_template l)).
Proof. exact better_cand_iff. Qed.
Print Assumptions C106_better.

(** Added to any other overloads: if one of these can be called with a standard conversion, the call is what it is without any_sink. *)
Theorem C106_standard : forall ks, (exists k, In k ks /\ by_standard k) -> resolve (sink :: ks) = option_map S (resolve ks).
Proof. exact resolve_fallback_standard. Qed.
Print Assumptions C106_standard.
Example C106_standard_ex : let ks := [mk_cand (Some (Standard 1)) None; mk_cand (Some (Standard 0)) (Some 0)] in
  (exists k, In k ks /\ by_standard k) /\ resolve (sink :: ks) = Some 2.
Proof. split; [|reflexivity]. eexists. split; [left; reflexivity|]. exists 1. reflexivity. Qed.

(** The overload for any_sink is called exactly if the others cannot be called, have an ellipsis, or are templates that need a
    user-defined conversion. *)
Theorem C106_fallback_partial : forall ks, (forall k, In k ks -> not_sink k) ->
  (resolve (sink :: ks) = Some 0 <->
   forall k, In k ks -> k_conv k = None \/ k_conv k = Some Ellipsis \/ (by_user k /\ k_template k <> None)).
Proof.
  intros ks NS. split.
  - intros R k I. destruct (k_conv k) as [[r|f r| |]|] eqn:K; auto.
    + rewrite resolve_fallback_standard in R by (exists k; split; [exact I|exists r; exact K]). destruct (resolve ks); discriminate.
    + right. right. split; [exists f, r; exact K|]. intro T.
      apply resolve_best in R. destruct R as [s [E [_ B]]]. cbn in E. inversion E; subst s. apply In_nth_error in I. destruct I as [i I].
      specialize (B (S i) k I (Nat.neq_succ_0 i)). unfold better_cand in B. rewrite K, T in B. discriminate.
    + exfalso. exact (NS k I K).
  - intro H. apply resolve_fallback_none; [exact NS| |].
    + intros k I [r K]. destruct (H k I) as [E|[E|[[f [q E]] _]]]; congruence.
    + intros k I [f [r K]]. destruct (H k I) as [E|[E|[_ E]]]; congruence.
Qed.
Print Assumptions C106_fallback_partial.
Example C106_fallback_partial_ex : (forall k, In k [mk_cand (Some Ellipsis) None; mk_cand None (Some 0)] -> not_sink k) /\
  resolve [sink; mk_cand (Some Ellipsis) None; mk_cand None (Some 0)] = Some 0.
Proof. split; [|reflexivity]. intros k [<-|[<-|[]]]; discriminate. Qed.

(** Refuted: an overload that needs a user-defined conversion, such as one for std::string called with a string literal, could be called
    without the overload for any_sink; with it, the call is ambiguous, whatever else there is except standard conversions. *)
Theorem C106_ambiguous : forall ks, (forall k, In k ks -> ~ by_standard k) ->
  (exists k, In k ks /\ by_user k /\ k_template k = None) -> resolve (sink :: ks) = None.
Proof. exact resolve_fallback_user. Qed.
Print Assumptions C106_ambiguous.
Example C106_ambiguous_ex : let ks := [mk_cand (Some (UserDefined 1 0)) None] in
  (forall k, In k ks -> ~ by_standard k) /\ (exists k, In k ks /\ by_user k /\ k_template k = None).
Proof.
  split.
  - intros k [<-|[]] [r E]. discriminate.
  - eexists. split; [left; reflexivity|]. split; [exists 1, 0; reflexivity|reflexivity].
Qed.
Theorem C106_fallback_refuted : exists ks, resolve ks = Some 0 /\ resolve (sink :: ks) = None.
Proof. exists [mk_cand (Some (UserDefined 1 0)) None]. split; reflexivity. Qed.
Print Assumptions C106_fallback_refuted.
(** Refuted: a template that needs a user-defined conversion is no longer called. *)
Theorem C106_template_refuted : exists ks, resolve ks = Some 0 /\ resolve (sink :: ks) = Some 0.
Proof. exists [mk_cand (Some (UserDefined 1 0)) (Some 0)]. split; reflexivity. Qed.
Print Assumptions C106_template_refuted.

(** any_source: values of object types, references to const and rvalue references can be had in unevaluated operands. *)
Theorem C106_source_partial : forall t, use_source Unevaluated t = Ok tt <-> t = Object \/ t = ConstLvalueRef \/ t = RvalueRef.
Proof. intro t. destruct t; cbn; intuition discriminate. Qed.
Print Assumptions C106_source_partial.
(** Refuted: there are no values; any evaluation is undefined, or not a constant expression. *)
Theorem C106_source_refuted : forall t, use_source Evaluated t <> Ok tt /\ use_source ConstantExpression t = IllFormed /\
  (use_source Unevaluated t = Ok tt -> use_source Evaluated t = UB).
Proof. intro t. destruct t; cbn; repeat split; discriminate || reflexivity. Qed.
Print Assumptions C106_source_refuted.

(** * C107 *)

(** The bits of a tag class: the most derived of the standard tags, if it is an unambiguous base; 0 if there is none and no conversion
    function; otherwise an error. *)
Theorem C107_input : forall t,
  (forall b, strongest t b -> input_tag_bit t = if subobjects t b =? 1 then Ok (N.of_nat (level b)) else IllFormed) /\
  ((forall b, input_tag b -> ~ derives t b) -> input_tag_bit t = if converts t TInput then IllFormed else Ok 0%N) /\
  ((exists b, strongest t b) \/ (forall b, input_tag b -> ~ derives t b)).
Proof. intro t. split; [apply input_strongest|split; [apply input_none|apply strongest_or_none]]. Qed.
Print Assumptions C107_input.
Example C107_input_ex : strongest (Class [Std TForward; Std TOutput] []) TForward /\
  input_tag_bit (Class [Std TForward; Std TOutput] []) = Ok 2%N.
Proof.
  split; [|reflexivity]. split; [unfold input_tag; auto|]. split.
  - apply derives_base with (Std TForward); [left; reflexivity|]. constructor; [intuition|cbn; lia].
  - intros b I D. inversion D as [|t bs cs b' J E]; subst. destruct J as [<-|[<-|[]]]; inversion E; subst; cbn in *; lia.
Qed.
Theorem C107_output : forall t,
  (derives t TOutput -> output_tag_bit t = if subobjects t TOutput =? 1 then Ok 1%N else IllFormed) /\
  (~ derives t TOutput -> output_tag_bit t = if converts t TOutput then IllFormed else Ok 0%N).
Proof.
  intro t. rewrite output_bit_of, <- subobjects_derives. split; intro H; destruct (subobjects t TOutput) as [|[|n]]; try lia; reflexivity.
Qed.
Print Assumptions C107_output.
Example C107_output_ex : derives (Class [Std TForward; Std TOutput] []) TOutput /\ ~ derives (Std TInput) TOutput.
Proof.
  split.
  - apply derives_base with (Std TOutput); [right; left; reflexivity|]. constructor; [intuition|cbn; lia].
  - intro D. inversion D as [s b [E _] L|]; subst. discriminate E. reflexivity.
Qed.

(** The tag of a zip of ranges with proper tags: it is derived from those standard tags, except for the contiguous one, from which all of
    the tags are derived; and it is proper again. *)
Theorem C107_common : forall ts, ts <> [] -> (forall t, In t ts -> proper_tag t) ->
  exists c, common_tag ts = Ok c /\ proper_tag c /\
    forall b, derives c b <-> b <> TContiguous /\ forall t, In t ts -> derives t b.
Proof.
  intros [|t r] N P; [congruence|]. destruct (common_tag_ok t r P) as [c [E [S D]]]. exists c. split; [exact E|].
  split; [apply common_tag_proper; exact S|exact D].
Qed.
Print Assumptions C107_common.
(** Tags that are not proper are rejected. *)
Theorem C107_rejected : forall ts t, In t ts -> ~ proper_tag t -> common_tag ts = IllFormed.
Proof. exact common_tag_bad. Qed.
Print Assumptions C107_rejected.
Example C107_rejected_ex : ~ proper_tag (Class [] [TForward]).
Proof.
  intros [_ [H _]]. specialize (H (fun b _ D => match D in derives t _ return match t with Class [] _ => False | _ => True end with
    | derives_std _ _ _ _ => I | derives_base _ [] _ _ I' _ => I' | derives_base _ (_ :: _) _ _ _ _ => I end) TForward).
  unfold input_tag in H. specialize (H (or_intror (or_introl eq_refl))). discriminate.
Qed.

(** All standard tags are proper, and all classes with one base class that is proper, and no conversion functions. *)
Theorem C107_proper : (forall s, proper_tag (Std s)) /\ (forall t, proper_tag t -> proper_tag (Class [t] [])).
Proof.
  split.
  - intro s. apply proper_std.
  - intros t. apply proper_single.
Qed.
Print Assumptions C107_proper.
Example C107_common_ex : let ts := [Std TContiguous; Class [Class [Std TForward] []] []] in
  ts <> [] /\ (forall t, In t ts -> proper_tag t) /\
  common_tag ts = Ok (Class [Class [Std TForward] []; Class [] []] []).
Proof.
  split; [discriminate|]. split; [|reflexivity]. intros t [<-|[<-|[]]]; [apply C107_proper|apply C107_proper, C107_proper, C107_proper].
Qed.

(** Zips of zips have the same tags as zips of all their ranges. *)
Theorem C107_nested : forall ts us, ts <> [] -> (forall t, In t (ts ++ us) -> proper_tag t) ->
  exists c d e, common_tag ts = Ok c /\ common_tag (c :: us) = Ok d /\ common_tag (ts ++ us) = Ok e /\
    forall b, derives d b <-> derives e b.
Proof.
  intros ts us N P. destruct (C107_common ts N) as [c [Ec [Pc Dc]]]; [intros t I; apply P, in_or_app; left; exact I|].
  destruct (C107_common (c :: us)) as [d [Ed [_ Dd]]]; [discriminate| |].
  { intros t [<-|I]; [exact Pc|]. apply P, in_or_app. right. exact I. }
  destruct (C107_common (ts ++ us)) as [e [Ee [_ De]]]; [destruct ts; [congruence|discriminate]|exact P|].
  exists c, d, e. repeat split; try assumption.
  - intro D. apply De. apply Dd in D. destruct D as [NC A]. split; [exact NC|]. intros t I. apply in_app_or in I. destruct I as [I|I].
    + apply (proj1 (Dc b)); [apply A; left; reflexivity|exact I].
    + apply A. right. exact I.
  - intro D. apply Dd. apply De in D. destruct D as [NC A]. split; [exact NC|]. intros t [<-|I].
    + apply Dc. split; [exact NC|]. intros t I. apply A, in_or_app. left. exact I.
    + apply A, in_or_app. right. exact I.
Qed.
Print Assumptions C107_nested.

(** Refuted: that a tag is accepted if it can be converted to a tag of the standard, or is derived from one. *)
Theorem C107_accepted_refuted :
  common_tag [Class [] [TForward]] = IllFormed /\
  common_tag [Class [Class [Std TForward] []; Class [Std TForward] []] []] = IllFormed /\
  (** but a base class that is ambiguous does not matter if there is a more derived one. *)
  (exists c, common_tag [Class [Class [Std TForward] []; Class [Std TInput] []] []] = Ok c /\ derives c TForward) /\
  (exists c, common_tag [Class [Std TForward] [TRandomAccess]] = Ok c /\ ~ derives c TRandomAccess).
Proof.
  split; [reflexivity|]. split; [reflexivity|]. split; (eexists; split; [reflexivity|]); rewrite <- subobjects_derives; cbn; lia.
Qed.
Print Assumptions C107_accepted_refuted.
