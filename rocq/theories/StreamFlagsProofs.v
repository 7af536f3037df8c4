(** Proofs about sequences of flags written to and read from streams. *)

From Coq Require Import String Ascii ZArith NArith Arith Bool Lia List.
From Verif Require Import Base SerializeModel SerializeSpec SerializeProofs SerializeFlagsProofs StreamModel StreamSpec StreamProofs.
Import ListNotations.

Lemma reordered_unique : forall vs ns v1 n1 v2 n2, length vs = length ns -> reordered vs ns v1 n1 -> reordered vs ns v2 n2 -> v1 = v2 /\ n1 = n2.
Proof.
  intros vs ns v1 n1 v2 n2 L (A1 & A2 & A3) (B1 & B2 & B3).
  assert (C : combine v1 n1 = combine v2 n2) by congruence.
  assert (S : forall (a : list N) (b : list str), length a = length b -> split (combine a b) = (a, b)) by (intros; apply combine_split; auto).
  pose proof (S v1 n1 ltac:(congruence)) as S1. pose proof (S v2 n2 ltac:(congruence)) as S2. rewrite C, S2 in S1. injection S1 as -> ->. auto.
Qed.

Section FlagsBack.
  Variables (w : N) (src : enum_source N) (vs : list N) (ns : list str).
  Hypothesis Hal : aligned (src_values src) (src_names src) vs ns.
  Hypothesis Hok : Forall (name_ok flags_reserved) ns.
  Hypothesis Hcov : bits_covered vs.
  Hypothesis Hnd : NoDup ns.
  Hypothesis Hclean : Forall (fun n => bare n /\ forall c, In c n -> ~ delim c) ns.
  Hypothesis Hspace : forall n, In n ns -> ~ starts_with_space n.

  Definition good_flags (f : N) : Prop := (f < 2 ^ w)%N /\ forall k, N.testbit f k = true -> bit_defined vs k.

  Lemma join_chars : forall sep l c, In c (join sep l) -> In c sep \/ exists n, In n l /\ In c n.
  Proof.
    induction l as [|a l IH]; intros c H; [destruct H|]. destruct l as [|b l].
    - cbn in H. right. exists a. split; [left; reflexivity|exact H].
    - cbn [join] in H. rewrite !in_app_iff in H. destruct H as [H|[H|H]]; [right; exists a; split; [left; reflexivity|exact H]|left; exact H|].
      destruct (IH c H) as [S|(n & I & C)]; [left; exact S|right; exists n; split; [right; exact I|exact C]].
  Qed.
  Lemma join_head : forall sep n l, exists r, join sep (n :: l) = n ++ r.
  Proof. intros sep n [|b l]; [exists []; cbn; rewrite app_nil_r; reflexivity|eexists; reflexivity]. Qed.

  (** The text of a combination: no reserved characters, and no space at the front. *)
  Lemma text_shape : forall f, good_flags f -> exists s, api_flags_to_string w src f = Ok s /\ Forall (fun c => ~ flags_reserved c) s /\ ~ starts_with_space s /\
    (forall indet, api_parse_flags indet src s = Ok f).
  Proof.
    intros f [F1 F2]. destruct (flags_round_trip w src vs ns Hal Hok Hcov Hnd Hclean f 0%N F1 F2) as (s & W & _). exists s. split; [exact W|].
    assert (RT : forall indet, api_parse_flags indet src s = Ok f).
    { intro indet. destruct (flags_round_trip w src vs ns Hal Hok Hcov Hnd Hclean f indet F1 F2) as (s' & W' & P). congruence. }
    destruct (flags_to_string_exact w src vs ns Hal Hok Hcov f F1) as [T _]. destruct (T F2) as (s' & W' & Tn & T0). rewrite W in W'. injection W' as <-.
    assert (Hn : forall n, In n ns -> n <> [] /\ forall c, In c n -> ~ flags_reserved c) by (intros n I; apply (proj1 (Forall_forall _ _) Hok n I)).
    destruct (N.eq_dec f 0) as [Z|NZ].
    - destruct (T0 Z) as [(k & K1 & K2)|(_ & ->)].
      + assert (I : In s ns) by (eapply nth_error_In; eauto). destruct (Hn s I) as [_ R]. split; [apply Forall_forall; exact R|]. split; [apply Hspace; exact I|exact RT].
      + split; [constructor|]. split; [intros (c & r & E & _); discriminate|exact RT].
    - destruct (Tn NZ) as [(is & names & C1 & C2 & C3 & ->) _].
      assert (In_ns : forall n, In n names -> In n ns).
      { clear - C3. induction C3 as [|i n is names H F IH]; intros m I; [destruct I|]. destruct I as [<-|I]; [eapply nth_error_In; eauto|auto]. }
      split; [|split; [|exact RT]].
      + apply Forall_forall. intros c I. apply join_chars in I as [I|(n & I & C)].
        * destruct I as [<-|[]]. unfold flags_reserved. cbn. intuition discriminate.
        * apply (Hn n); auto.
      + destruct names as [|n names]; [intros (c & r & E & _); discriminate|]. destruct (join_head (lit "+") n names) as [r ->]. intros (c & r' & E & S).
        assert (I : In n ns) by (apply In_ns; left; reflexivity). destruct n as [|c' n]; [destruct (Hn [] I); congruence|]. injection E as -> _. apply (Hspace _ I). exists c, n. auto.
  Qed.

  Lemma extract_text : forall sentry pre f s rest v0, good_flags f -> Forall space_char pre -> Forall (fun c => ~ flags_reserved c) s -> ~ starts_with_space s ->
    (forall indet, api_parse_flags indet src s = Ok f) -> (forall c r, rest = c :: r -> flags_reserved c) ->
    extract_flags sentry src (mk_istream (pre ++ s ++ rest) false false) v0 = Ok (mk_istream rest (at_end rest) false, f).
  Proof.
    intros sentry pre f s rest v0 G Hpre Hs Hsp P Hr. destruct (extract_flags_exact src vs ns Hal Hok Hcov) as (v1 & n1 & R1 & X).
    destruct (parse_flags_exact src vs ns Hal Hok Hcov) as (v2 & n2 & R2 & Y). destruct Hal as (_ & _ & L). destruct (reordered_unique _ _ _ _ _ _ L R1 R2) as [<- <-].
    destruct (X sentry (pre ++ s ++ rest) v0) as (_ & X2 & _). destruct (X2 pre s rest) as [X3 _].
    - split; [reflexivity|]. split; [exact Hpre|]. split; [|split; [exact Hs|exact Hr]].
      intros c r E S. destruct s as [|c0 s0]; [|apply Hsp; injection E as -> _; exists c, s0; auto]. cbn in E. specialize (Hr c r E). revert Hr. unfold flags_reserved. unfold space_char in S. cbn. intros I.
      repeat destruct I as [<-|I]; cbn in S; lia.
    - apply X3. destruct (Y 0%N s) as [Y1 _]. apply Y1, P.
  Qed.

  Lemma read_flags_back : forall sentry v0 l last pre, Forall (fun p => good_flags (fst p)) l -> good_flags last -> Forall (fun p => flags_separator (snd p)) l -> Forall space_char pre ->
    exists t st, (forall out, write_flags w src out (l ++ [(last, [])]) = Ok (out ++ t)) /\
      read_flags sentry src v0 (mk_istream (pre ++ t) false false) (length l) = Ok (st, map fst l) /\
      extract_flags sentry src st v0 = Ok (mk_istream [] true false, last).
  Proof.
    intros sentry v0 l last. induction l as [|[v sep] l IH]; intros pre Hg Hlast Hsep Hpre.
    - destruct (text_shape last Hlast) as (s & W & S1 & S2 & S3). exists s, (mk_istream (pre ++ s) false false). split; [|split].
      + intro out. cbn [app write_flags]. unfold insert_flags. unfold api_flags_to_string in W. apply bind_ok_inv in W as (md & -> & W). cbn [bind]. rewrite W. cbn [bind]. rewrite app_nil_r. reflexivity.
      + reflexivity.
      + replace (pre ++ s) with (pre ++ s ++ []) by (rewrite app_nil_r; reflexivity). rewrite (extract_text sentry pre last s [] v0); auto. discriminate.
    - inversion Hg as [|? ? Gv Gl]; subst. inversion Hsep as [|? ? (c & r & Es & Hc & Hr) Sl]; subst. cbn [fst snd] in *.
      destruct (IH r Gl Hlast Sl Hr) as (t & st & W & R & X). destruct (text_shape v Gv) as (s & Wv & S1 & S2 & S3).
      exists (s ++ sep ++ t), st. split; [|split; [|exact X]].
      + intro out. cbn [app write_flags]. unfold insert_flags. unfold api_flags_to_string in Wv. apply bind_ok_inv in Wv as (md & -> & Wv). cbn [bind]. rewrite Wv. cbn [bind]. rewrite W, <- !app_assoc. reflexivity.
      + cbn [length read_flags map fst]. rewrite (extract_text sentry pre v s (sep ++ t) v0); auto.
        2:{ intros c' r' E. rewrite Es in E. injection E as <- _. exact Hc. }
        cbn [bind]. rewrite Es. cbn [app at_end]. unfold get1, is_good. cbn [is_eof is_fail is_buf negb andb]. rewrite R. reflexivity.
  Qed.
End FlagsBack.
