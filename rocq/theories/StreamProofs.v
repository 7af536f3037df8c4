(** Proofs about stream extraction. *)

From Coq Require Import String Ascii ZArith NArith Arith Bool List Lia.
From Verif Require Import Base SerializeModel SerializeSpec SerializeProofs SerializeFlagsProofs StreamModel StreamSpec.
Import ListNotations.

Lemma is_space_iff : forall c, is_space c = true <-> space_char c.
Proof.
  intro c. unfold is_space, space_char, uchar.
  rewrite orb_true_iff, andb_true_iff, !N.leb_le, N.eqb_eq. tauto.
Qed.

Lemma is_space_false : forall c, is_space c = false <-> ~ space_char c.
Proof. intro c. rewrite <- is_space_iff. destruct (is_space c); split; congruence. Qed.

Lemma ws_loop_spec : forall l x, Forall space_char l -> (forall c r, x = c :: r -> ~ space_char c) ->
  ws_loop (l ++ x) = (x, match x with [] => true | _ => false end).
Proof.
  induction l as [|c l IH]; intros x Hl Hx; cbn [app ws_loop].
  - destruct x as [|c r]; auto. cbn [ws_loop].
    assert (E : is_space c = false) by (apply is_space_false; eapply Hx; eauto). rewrite E; auto.
  - inversion Hl; subst. apply is_space_iff in H1. rewrite H1. auto.
Qed.

Lemma read_loop_spec : forall set (reserved : ascii -> Prop),
  (forall c, exists b, char_bitset_contains set c = Ok b /\ (b = true <-> reserved c)) ->
  forall tok rest acc, Forall (fun c => ~ reserved c) tok ->
  (forall c r, rest = c :: r -> reserved c) ->
  read_loop set (tok ++ rest) acc =
  Ok (acc ++ tok, mk_istream rest (match rest with [] => true | _ => false end) false).
Proof.
  intros set rs Hset. induction tok as [|c tok IH]; intros rest acc Ht Hr; cbn [app read_loop].
  - rewrite app_nil_r. destruct rest as [|c r]; auto. cbn [read_loop].
    destruct (Hset c) as [b [E Hb]]. rewrite E. cbn [bind].
    assert (b = true) by (apply Hb; eapply Hr; eauto). subst; auto.
  - inversion Ht; subst. destruct (Hset c) as [b [E Hb]]. rewrite E. cbn [bind].
    destruct b; [exfalso; apply H1, Hb; auto|].
    rewrite IH; auto. rewrite <- app_assoc; auto.
Qed.

(** Reading a token from a stream in any state. *)
Lemma ws_read_good : forall sentry set (reserved : ascii -> Prop),
  (forall c, exists b, char_bitset_contains set c = Ok b /\ (b = true <-> reserved c)) ->
  forall b l tok rest, one_token reserved b l tok rest ->
  read_token set (ws sentry (mk_istream b false false)) =
  Ok (tok, mk_istream rest (match rest with [] => true | _ => false end) false).
Proof.
  intros sentry set rs Hset b l tok rest [Hb [Hl [Hx [Ht Hr]]]].
  unfold ws. cbn [is_good is_eof is_fail negb andb is_buf]. rewrite andb_false_r.
  subst b. rewrite ws_loop_spec by auto. cbn [orb].
  destruct (tok ++ rest) as [|c r] eqn:E.
  - apply app_eq_nil in E as [-> ->]. reflexivity.
  - unfold read_token. cbn [is_good is_eof is_fail negb andb is_buf]. rewrite <- E.
    rewrite (read_loop_spec set rs); auto.
Qed.

Lemma ws_read_bad : forall (sentry : bool) set b e f l rest, e || f = true -> spaces_then b l rest ->
  read_token set (ws sentry (mk_istream b e f)) =
  Ok ([], if sentry then mk_istream b e true else mk_istream rest (e || at_end rest) f).
Proof.
  intros sentry set b e f l rest H (-> & Hl & Hr). unfold ws.
  assert (G : is_good (mk_istream (l ++ rest) e f) = false) by (unfold is_good; cbn; destruct e, f; auto; discriminate). rewrite G.
  destruct sentry; cbn [andb negb is_buf is_eof is_fail].
  - unfold set_fail, read_token, is_good. cbn [is_buf is_eof is_fail negb]. rewrite andb_false_r. auto.
  - rewrite ws_loop_spec by auto. unfold read_token, is_good, at_end. cbn [is_eof is_fail]. destruct e, f; try discriminate; cbn; rewrite ?andb_false_r; auto.
Qed.

Lemma one_token_exists : forall (forbidden : str) (reserved : ascii -> Prop),
  (forall c, In c forbidden <-> reserved c) ->
  forall b, exists l tok rest, one_token reserved b l tok rest.
Proof.
  intros fb rs Hiff b.
  assert (A : forall b, exists l x, b = l ++ x /\ Forall space_char l /\ (forall c r, x = c :: r -> ~ space_char c)).
  { induction b0 as [|c r [l [x [H1 [H2 H3]]]]].
    - exists [], []; repeat split; auto. intros; discriminate.
    - destruct (is_space c) eqn:E.
      + exists (c :: l), x; subst; repeat split; auto. constructor; auto. apply is_space_iff; auto.
      + exists [], (c :: r); repeat split; auto. intros c' r' E'; inversion E'; subst. apply is_space_false; auto. }
  assert (B : forall x, exists t r, x = t ++ r /\ Forall (fun c => ~ rs c) t /\ (forall c r', r = c :: r' -> rs c)).
  { induction x as [|c x [t [r [H1 [H2 H3]]]]].
    - exists [], []; repeat split; auto. intros; discriminate.
    - destruct (char_in fb c) eqn:E.
      + exists [], (c :: x); repeat split; auto. intros c' r' E'; inversion E'; subst.
        apply Hiff, char_in_iff; auto.
      + exists (c :: t), r; subst; repeat split; auto. constructor; auto.
        rewrite <- Hiff. apply char_in_false; auto. }
  destruct (A b) as [l [x [H1 [H2 H3]]]]. destruct (B x) as [t [r [H4 [H5 H6]]]].
  exists l, t, r. unfold one_token. subst. repeat split; auto.
Qed.

Lemma enum_set_ok : exists set, char_bitset_make enum_forbidden_chars = Ok set /\
  forall c, exists b, char_bitset_contains set c = Ok b /\ (b = true <-> enum_reserved c).
Proof.
  destruct (char_bitset_correct enum_forbidden_chars) as [d [H1 H2]]. exists d; split; auto.
  intro c. destruct (H2 c) as [b [H3 H4]]. exists b; split; auto. rewrite H4. apply enum_forbidden_iff.
Qed.

Lemma flags_set_ok : exists set, char_bitset_make flags_forbidden_chars = Ok set /\
  forall c, exists b, char_bitset_contains set c = Ok b /\ (b = true <-> flags_reserved c).
Proof.
  destruct (char_bitset_correct flags_forbidden_chars) as [d [H1 H2]]. exists d; split; [exact H1|].
  intro c. destruct (H2 c) as [b [H3 H4]]. exists b; split; [exact H3|]. rewrite H4. apply flags_forbidden_iff.
Qed.

Section EnumStream.
  Variables (src : enum_source Z) (vs : list Z) (ns : list str).
  Hypothesis Hal : aligned (src_values src) (src_names src) vs ns.
  Hypothesis Hok : Forall (name_ok enum_reserved) ns.

  Let Hlen : length vs = length ns.
  Proof. destruct Hal as [_ [_ H]]; auto. Qed.

  Lemma extract_enum_good : forall sentry b l tok rest v,
    one_token enum_reserved b l tok rest ->
    (forall x, value_of_name vs ns tok x ->
       extract_enum sentry src (mk_istream b false false) v = Ok (mk_istream rest (at_end rest) false, x)) /\
    (~ In tok ns ->
       extract_enum sentry src (mk_istream b false false) v = Ok (mk_istream rest (at_end rest) true, v)).
  Proof.
    intros sentry b l tok rest v Ht. unfold extract_enum.
    rewrite (static_enum_metadata_ok _ _ _ _ Hal Hok). cbn [bind].
    destruct enum_set_ok as [set [E1 E2]]. rewrite E1. cbn [bind].
    rewrite (ws_read_good sentry set enum_reserved E2 b l tok rest Ht). cbn [bind].
    destruct (try_enum_spec tok vs ns v Hlen) as [T1 T2].
    split.
    - intros x Hx. assert (tok <> []).
      { apply value_of_name_in in Hx. eapply name_ok_nonempty; eauto. }
      destruct tok as [|c tok]; [congruence|].
      unfold try_enum_from_string. cbn [md_values md_names]. rewrite (T1 _ Hx). auto.
    - intro Hn. destruct tok as [|c tok]; [reflexivity|].
      unfold try_enum_from_string. cbn [md_values md_names]. rewrite (T2 Hn). auto.
  Qed.

  Lemma extract_enum_bad : forall (sentry : bool) b e f l rest v, e || f = true -> spaces_then b l rest ->
    extract_enum sentry src (mk_istream b e f) v = Ok (if sentry then mk_istream b e true else mk_istream rest (e || at_end rest) true, v).
  Proof.
    intros sentry b e f l rest v H Hs. unfold extract_enum.
    rewrite (static_enum_metadata_ok _ _ _ _ Hal Hok). cbn [bind].
    destruct enum_set_ok as [set [E1 E2]]. rewrite E1. cbn [bind].
    rewrite (ws_read_bad sentry set b e f l rest) by auto. destruct sentry; reflexivity.
  Qed.

  Lemma extract_enum_exact : forall sentry b v,
    (exists l tok rest, one_token enum_reserved b l tok rest) /\
    (forall l tok rest, one_token enum_reserved b l tok rest ->
      (forall x, value_of_name vs ns tok x ->
         extract_enum sentry src (mk_istream b false false) v = Ok (mk_istream rest (at_end rest) false, x)) /\
      (~ In tok ns ->
         extract_enum sentry src (mk_istream b false false) v = Ok (mk_istream rest (at_end rest) true, v))) /\
    (forall e f, e || f = true -> forall l rest, spaces_then b l rest ->
       extract_enum sentry src (mk_istream b e f) v =
       Ok (if sentry then mk_istream b e true else mk_istream rest (e || at_end rest) true, v)).
  Proof.
    intros sentry b v. split; [|split].
    - apply (one_token_exists enum_forbidden_chars), enum_forbidden_iff.
    - intros l tok rest Ht. apply (extract_enum_good sentry b l tok rest v Ht).
    - intros e f Hef l rest Hs. apply extract_enum_bad with l; auto.
  Qed.

  (** Reading back. *)
  Hypothesis Hnd : NoDup ns.
  Hypothesis Hns : forall n, In n ns -> ~ starts_with_space n.

  Lemma listed_name : forall v, In v vs -> exists n, enum_to_string v (mk_enum_md (description_or_name_or_empty src) vs ns) = Ok n /\
    In n ns /\ value_of_name vs ns n v.
  Proof.
    intros v Hv. destruct (enum_to_string_exact src vs ns Hal Hok v) as [H1 [_ H3]].
    destruct (H3 Hv) as [n Hn]. exists n. split.
    - unfold api_enum_to_string in Hn. rewrite (static_enum_metadata_ok _ _ _ _ Hal Hok) in Hn. auto.
    - apply H1 in Hn as [k [[Hk1 _] Hk2]]. split; [eapply nth_error_In; eauto|].
      exists k; split; auto. apply first_pos_nodup; auto.
  Qed.

  Lemma name_no_reserved : forall n, In n ns -> Forall (fun c => ~ enum_reserved c) n.
  Proof.
    intros n Hn. apply Forall_forall. intros c Hc. rewrite Forall_forall in Hok.
    apply (Hok n Hn); auto.
  Qed.

  (** One value followed by something that ends a token. *)
  Lemma extract_one : forall sentry pre n v rest v0,
    Forall space_char pre -> In n ns -> value_of_name vs ns n v ->
    (forall c r, rest = c :: r -> enum_reserved c) ->
    extract_enum sentry src (mk_istream (pre ++ n ++ rest) false false) v0 =
    Ok (mk_istream rest (at_end rest) false, v).
  Proof.
    intros sentry pre n v rest v0 Hp Hi Hv Hr.
    apply (extract_enum_good sentry (pre ++ n ++ rest) pre n rest v0); auto.
    repeat split; auto using name_no_reserved.
    intros c r E. destruct n as [|d n].
    - exfalso. eapply name_ok_nonempty; eauto.
    - inversion E; subst. intro Hs. apply (Hns _ Hi). exists c, n; auto.
  Qed.

  Lemma write_enums_app : forall l out, Forall (fun p => In (fst p) vs) l ->
    exists t, write_enums src out l = Ok (out ++ t) /\ forall out', write_enums src out' l = Ok (out' ++ t).
  Proof.
    induction l as [|[v sep] l IH]; intros out H.
    - exists []. split; [|intro]; simpl; rewrite app_nil_r; auto.
    - inversion H; subst. cbn [fst] in *. destruct (listed_name v H2) as [n [En [Hn Hv]]].
      destruct (IH ((out ++ n) ++ sep) H3) as [t [_ Ht]].
      exists (n ++ sep ++ t).
      assert (G : forall o, write_enums src o ((v, sep) :: l) = Ok (o ++ n ++ sep ++ t)).
      { intro o. cbn [write_enums]. unfold insert_enum.
        rewrite (static_enum_metadata_ok _ _ _ _ Hal Hok). cbn [bind]. rewrite En. cbn [bind].
        rewrite Ht. rewrite <- !app_assoc. auto. }
      split; auto.
  Qed.

  (** Reading values written with separators; [skip]: explicit skipping of one character. *)
  Lemma read_back : forall sentry skip v0 l last pre,
    Forall (fun p => In (fst p) vs) l -> In last vs ->
    Forall (fun p => if (skip : bool) then reserved_separator (snd p) else blank_separator (snd p)) l ->
    Forall space_char pre ->
    exists t st, write_enums src pre (l ++ [(last, [])]) = Ok (pre ++ t) /\
      read_enums sentry skip src v0 (mk_istream (pre ++ t) false false) (length l) = Ok (st, map fst l) /\
      extract_enum sentry src st v0 = Ok (mk_istream [] true false, last).
  Proof.
    intros sentry skip v0 l last. induction l as [|[v sep] l IH]; intros pre Hin Hlast Hsep Hpre.
    - destruct (listed_name last Hlast) as [n [En [Hn Hv]]].
      exists n, (mk_istream (pre ++ n) false false). cbn [app write_enums].
      unfold insert_enum. rewrite (static_enum_metadata_ok _ _ _ _ Hal Hok). cbn [bind].
      rewrite En. cbn [bind]. rewrite app_nil_r. repeat split; auto.
      replace (pre ++ n) with (pre ++ n ++ []) by (rewrite app_nil_r; auto).
      rewrite (extract_one sentry pre n last [] v0); auto. intros; discriminate.
    - inversion Hin as [|? ? Hv Hin']; subst. inversion Hsep as [|? ? Hs Hsep']; subst. cbn [fst snd] in *.
      destruct (listed_name v Hv) as [n [En [Hn Hval]]].
      set (pre' := if skip then tl sep else sep).
      assert (Hpre' : Forall space_char pre').
      { unfold pre'. destruct skip; destruct Hs as [c [r [-> [Hc Hr]]]]; auto.
        constructor; auto. destruct Hc as [Hc|[Hc|[Hc|Hc]]]; unfold space_char; lia. }
      destruct (IH pre' Hin' Hlast Hsep' Hpre') as [t [st [W [R X]]]].
      assert (W' : forall o, write_enums src o (l ++ [(last, [])]) = Ok (o ++ t)).
      { destruct (write_enums_app (l ++ [(last, [])]) pre') as [t' [T1 T2]].
        - apply Forall_app; split; auto.
        - rewrite T1 in W. inversion W as [Ht]. apply app_inv_head in Ht. subst; auto. }
      exists (n ++ sep ++ t), st. split; [|split]; auto.
      + cbn [app write_enums]. unfold insert_enum.
        rewrite (static_enum_metadata_ok _ _ _ _ Hal Hok). cbn [bind]. rewrite En. cbn [bind].
        rewrite W', <- !app_assoc. auto.
      + cbn [length read_enums map fst].
        assert (Hsep0 : exists c r, sep = c :: r /\ enum_reserved c).
        { destruct skip; destruct Hs as [c [r [-> [Hc Hr]]]]; exists c, r; split; auto.
          apply enum_forbidden_iff. unfold enum_forbidden_chars.
          apply whitespace_iff in Hc. simpl in Hc. simpl. tauto. }
        destruct Hsep0 as [c [r [Es Hc]]].
        rewrite (extract_one sentry pre n v (sep ++ t) v0); auto.
        2:{ intros c' r' E'. rewrite Es in E'. inversion E'; subst; auto. }
        cbn [bind]. unfold at_end. rewrite Es. cbn [app].
        replace (if skip then get1 (mk_istream (c :: r ++ t) false false) else mk_istream (c :: r ++ t) false false)
          with (mk_istream (pre' ++ t) false false).
        2:{ unfold pre'. rewrite Es. destruct skip; reflexivity. }
        rewrite R. reflexivity.
  Qed.
End EnumStream.

Section FlagsStream.
  Variables (src : enum_source N) (vs : list N) (ns : list str).
  Hypothesis Hal : aligned (src_values src) (src_names src) vs ns.
  Hypothesis Hok : Forall (name_ok flags_reserved) ns.
  Hypothesis Hcov : bits_covered vs.

  Lemma extract_flags_exact : exists vs' ns', reordered vs ns vs' ns' /\
    forall sentry b v,
    (exists l tok rest, one_token flags_reserved b l tok rest) /\
    (forall l tok rest, one_token flags_reserved b l tok rest ->
      (forall f, flags_text vs' ns' tok f ->
         extract_flags sentry src (mk_istream b false false) v =
         Ok (mk_istream rest (at_end rest) false, f)) /\
      ((~ exists f, flags_text vs' ns' tok f) ->
         extract_flags sentry src (mk_istream b false false) v =
         Ok (mk_istream rest (at_end rest) true, v))) /\
    (forall e f, e || f = true -> forall l rest, spaces_then b l rest ->
       extract_flags sentry src (mk_istream b e f) v =
       Ok (if sentry then mk_istream b e true else mk_istream rest (e || at_end rest) f, 0%N)).
  Proof.
    pose proof Hal as [_ [_ Hlen]].
    set (md := flags_md_of (description_or_name_or_empty src) (combine vs ns)).
    exists (md_values (fmd_base md)), (md_names (fmd_base md)).
    assert (Hr : reordered vs ns (md_values (fmd_base md)) (md_names (fmd_base md)))
      by (apply flags_md_of_reordered; auto).
    split; auto. intros sentry b v.
    assert (Hl' : length (md_values (fmd_base md)) = length (md_names (fmd_base md)))
      by (destruct Hr as [Hr1 [Hr2 _]]; congruence).
    split; [|split].
    - apply (one_token_exists flags_forbidden_chars), flags_forbidden_iff.
    - intros l tok rest Ht. unfold extract_flags.
      rewrite (static_flags_metadata_ok _ _ _ Hal Hok Hcov). cbn [bind]. fold md.
      destruct flags_set_ok as [set [E1 E2]]. rewrite E1. cbn [bind].
      rewrite (ws_read_good sentry set flags_reserved E2 b l tok rest Ht). cbn [bind].
      destruct (flags_from_string_spec _ _ (description_or_name_or_empty src) tok v false Hl') as [F1 F2].
      replace (mk_enum_md (description_or_name_or_empty src) (md_values (fmd_base md)) (md_names (fmd_base md)))
        with (fmd_base md) in * by reflexivity.
      split.
      + intros f Hf. apply F1 in Hf. rewrite Hf. auto.
      + intro Hn. destruct F2 as [F2|[t [_ Ht2]]]; [contradiction|]. rewrite Ht2. auto.
    - intros e f Hef l rest Hs. unfold extract_flags.
      rewrite (static_flags_metadata_ok _ _ _ Hal Hok Hcov). cbn [bind].
      destruct flags_set_ok as [set [E1 E2]]. rewrite E1. cbn [bind].
      rewrite (ws_read_bad sentry set b e f l rest) by auto. destruct sentry; reflexivity.
  Qed.
End FlagsStream.
