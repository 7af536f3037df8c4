(** Proofs about padded output. *)

From Coq Require Import String Ascii ZArith NArith Arith Bool Lia List.
From Verif Require Import Base SerializeModel SerializeSpec SerializeProofs SerializeFlagsProofs StreamModel StreamSpec StreamProofs StreamFlagsProofs StreamIoModel StreamIoSpec.
Import ListNotations.

Lemma os_put_filled : forall os s, exists t, os_put os s = mk_ostream (os_out os ++ t) 0 (os_fill os) (os_left os) /\ filled (os_fill os) (os_left os) (os_width os) s t.
Proof.
  intros [o w f lf] s. unfold os_put. cbn. eexists. split; [reflexivity|]. eexists. split; [reflexivity|].
  split; [apply Forall_forall; intros c Hc; eapply repeat_spec; eauto|]. destruct lf; rewrite app_length, repeat_length; lia.
Qed.
Lemma filled_parts : forall fill lf w s t, filled fill lf w s t ->
  exists pl pr, t = pl ++ s ++ pr /\ Forall (fun c => c = fill) pl /\ Forall (fun c => c = fill) pr /\ (lf = false -> pr = []).
Proof.
  intros fill lf w s t (p & -> & Hp & _). destruct lf.
  - exists [], p. repeat split; auto. discriminate.
  - exists p, []. rewrite app_nil_r. repeat split; auto.
Qed.
Lemma put_unpadded : forall os s, os_put (mk_ostream (os_out os) 0 (os_fill os) (os_left os)) s = mk_ostream (os_out os ++ s) 0 (os_fill os) (os_left os).
Proof.
  intros os s. unfold os_put. cbn [os_out os_width os_fill os_left]. replace (Z.to_nat (0 - Z.of_nat (length s))) with 0 by lia. cbn [repeat]. rewrite app_nil_r. destruct (os_left os); reflexivity.
Qed.

Lemma blank_space : forall c, blank_char c -> space_char c.
Proof. intros c [H|[H|[H|H]]]; unfold space_char; lia. Qed.
Lemma blank_reserved : forall c, blank_char c -> enum_reserved c.
Proof. intros c Hc. apply enum_forbidden_iff. unfold enum_forbidden_chars. apply whitespace_iff in Hc. simpl in Hc. simpl. tauto. Qed.
Lemma fill_all : forall (P : ascii -> Prop) fill p, P fill -> Forall (fun c => c = fill) p -> Forall P p.
Proof. intros P fill p H. apply Forall_impl. intros c ->. auto. Qed.

Section EnumPad.
  Variables (src : enum_source Z) (vs : list Z) (ns : list str).
  Hypothesis Hal : aligned (src_values src) (src_names src) vs ns.
  Hypothesis Hok : Forall (name_ok enum_reserved) ns.

  Lemma put_enum_exact : forall os v,
    (forall n, name_of_value vs ns v n -> exists t, put_enum src os v = Ok (mk_ostream (os_out os ++ t) 0 (os_fill os) (os_left os)) /\ filled (os_fill os) (os_left os) (os_width os) n t) /\
    (~ In v vs -> put_enum src os v = Contract).
  Proof.
    intros os v. destruct (enum_to_string_exact src vs ns Hal Hok v) as [H1 [H2 _]]. unfold api_enum_to_string in *. unfold put_enum.
    rewrite (static_enum_metadata_ok _ _ _ _ Hal Hok) in *. cbn [bind] in *. split.
    - intros n Hn. apply H1 in Hn. rewrite Hn. cbn [bind]. destruct (os_put_filled os n) as (t & -> & F). eauto.
    - intros Hn. apply H2 in Hn. rewrite Hn. reflexivity.
  Qed.

  Hypothesis Hnd : NoDup ns.
  Hypothesis Hns : forall n, In n ns -> ~ starts_with_space n.
  Variable fill : ascii.
  Hypothesis Hfill : blank_char fill.

  Lemma put_enum_parts : forall os v, os_fill os = fill -> In v vs -> exists n pl pr,
    put_enum src os v = Ok (mk_ostream (os_out os ++ pl ++ n ++ pr) 0 fill (os_left os)) /\ In n ns /\ value_of_name vs ns n v /\
    Forall blank_char pl /\ Forall blank_char pr /\ (os_left os = false -> pr = []).
  Proof.
    intros os v Hf Hv. destruct (listed_name src vs ns Hal Hok Hnd v Hv) as (n & En & Hn & Hval).
    unfold put_enum. rewrite (static_enum_metadata_ok _ _ _ _ Hal Hok). cbn [bind]. rewrite En. cbn [bind].
    destruct (os_put_filled os n) as (t & -> & F). apply filled_parts in F as (pl & pr & -> & F1 & F2 & F3). exists n, pl, pr. rewrite Hf in *.
    repeat split; eauto using fill_all.
  Qed.

  Lemma fields_read_back : forall sentry skip v0 l last pre os,
    os_fill os = fill ->
    Forall (fun f => In (fd_value f) vs) l -> In (fd_value last) vs -> fd_sep last = [] ->
    Forall (fun f => if (skip : bool) then reserved_separator (fd_sep f) /\ fd_left f = false else blank_separator (fd_sep f)) l ->
    Forall space_char pre ->
    exists t os' st rest,
      put_fields (put_enum src) os (l ++ [last]) = Ok os' /\ os_out os' = os_out os ++ t /\ os_width os' = (match l ++ [last] with [] => os_width os | _ => 0%Z end) /\
      read_enums sentry skip src v0 (mk_istream (pre ++ t) false false) (length l) = Ok (st, map fd_value l) /\
      extract_enum sentry src st v0 = Ok (mk_istream rest (at_end rest) false, fd_value last) /\ Forall blank_char rest.
  Proof.
    intros sentry skip v0 l last. induction l as [|f l IH]; intros pre os Hf Hin Hlast Hls Hsep Hpre.
    - cbn [app put_fields]. destruct (put_enum_parts (mk_ostream (os_out os) (fd_width last) (os_fill os) (fd_left last)) (fd_value last) Hf Hlast) as (n & pl & pr & -> & Hn & Hv & F1 & F2 & F3).
      cbn [bind os_out os_left]. rewrite Hls.
      pose proof (put_unpadded (mk_ostream (os_out os ++ pl ++ n ++ pr) 0 fill (fd_left last)) []) as U. cbn [os_out os_fill os_left] in U. rewrite U. rewrite app_nil_r.
      exists (pl ++ n ++ pr). eexists. eexists. exists pr. split; [reflexivity|]. cbn [os_out os_width]. split; auto. split; auto. split; [reflexivity|]. split; auto.
      rewrite app_assoc. apply (extract_one src vs ns Hal Hok Hns); auto.
      { apply Forall_app; split; auto. eapply Forall_impl; [|exact F1]. apply blank_space. }
      intros c r ->. inversion F2; subst. apply blank_reserved; auto.
    - apply Forall_cons_iff in Hin as [Hv0 Hin']. apply Forall_cons_iff in Hsep as [Hs Hsep'].
      cbn [app put_fields].
      destruct (put_enum_parts (mk_ostream (os_out os) (fd_width f) (os_fill os) (fd_left f)) (fd_value f) Hf Hv0) as (n & pl & pr & -> & Hn & Hv & F1 & F2 & F3).
      cbn [bind os_out os_left] in *.
      pose proof (put_unpadded (mk_ostream (os_out os ++ pl ++ n ++ pr) 0 fill (fd_left f)) (fd_sep f)) as U. cbn [os_out os_fill os_left] in U. rewrite U.
      set (pre' := if skip then tl (fd_sep f) else pr ++ fd_sep f).
      assert (Hpre' : Forall space_char pre').
      { unfold pre'. destruct skip.
        - destruct Hs as [(c & r & E & Hc & Hr) _]. rewrite E. auto.
        - destruct Hs as (c & r & E & Hc & Hr). apply Forall_app; split; [eapply Forall_impl; [|exact F2]; apply blank_space|]. rewrite E. constructor; auto. apply blank_space; auto. }
      destruct (IH pre' (mk_ostream ((os_out os ++ pl ++ n ++ pr) ++ fd_sep f) 0 fill (fd_left f)) eq_refl Hin' Hlast Hls Hsep' Hpre') as (t & os' & st & rest & P1 & P2 & P3 & P4 & P5 & P6).
      exists (pl ++ n ++ pr ++ fd_sep f ++ t), os', st, rest. split; auto. split; [rewrite P2; cbn [os_out]; rewrite <- !app_assoc; auto|]. split; [rewrite P3; destruct l; auto|]. split; auto.
      cbn [length read_enums map]. rewrite app_assoc.
      assert (Hend : forall c r, pr ++ fd_sep f ++ t = c :: r -> enum_reserved c).
      { intros c r E. destruct pr as [|d pr].
        - destruct skip; [destruct Hs as [(c' & r' & E' & Hc & _) _]|destruct Hs as (c' & r' & E' & Hc & _)]; rewrite E' in E; inversion E; subst; auto using blank_reserved.
        - inversion E; subst. inversion F2; subst. apply blank_reserved; auto. }
      rewrite (extract_one src vs ns Hal Hok Hns sentry (pre ++ pl) n (fd_value f) (pr ++ fd_sep f ++ t) v0); auto.
      2:{ apply Forall_app; split; auto. eapply Forall_impl; [|exact F1]. apply blank_space. }
      cbn [bind].
      assert (Hst : (if skip then get1 (mk_istream (pr ++ fd_sep f ++ t) (at_end (pr ++ fd_sep f ++ t)) false) else mk_istream (pr ++ fd_sep f ++ t) (at_end (pr ++ fd_sep f ++ t)) false) = mk_istream (pre' ++ t) false false).
      { unfold pre'. destruct skip.
        - destruct Hs as [(c & r & E & Hc & Hr) Hl]. rewrite (F3 Hl), E. reflexivity.
        - destruct Hs as (c & r & E & Hc & Hr). rewrite <- app_assoc. f_equal. rewrite E. destruct pr; reflexivity. }
      rewrite Hst, P4. reflexivity.
  Qed.
End EnumPad.

(** Blanks after a text of flags do not matter. *)
Lemma splits_ne : forall s ps, splits s ps -> ps <> [].
Proof. intros s ps H. destruct H; discriminate. Qed.
Lemma blank_app : forall a b, blank b -> (blank (a ++ b) <-> blank a).
Proof. unfold blank. intros a b Hb. rewrite Forall_app. intuition. Qed.
Lemma splits_app : forall s ps p, splits s ps -> (forall c, In c p -> ~ delim c) -> splits (s ++ p) (removelast ps ++ [last ps [] ++ p]).
Proof.
  intros s ps p H Hp. induction H as [q Hq|q d s ps Hq Hd H IH].
  - cbn. constructor. intros c Hc. apply in_app_iff in Hc as [Hc|Hc]; auto.
  - pose proof (splits_ne _ _ H) as Hne. destruct ps as [|a ps]; [congruence|].
    change (removelast (q :: a :: ps)) with (q :: removelast (a :: ps)). change (last (q :: a :: ps) []) with (last (a :: ps) []).
    rewrite <- app_assoc. cbn [app]. constructor; auto.
Qed.
Lemma blank_not_delim : forall c, blank_char c -> ~ delim c.
Proof. intros c Hc [->| ->]; destruct Hc as [H|[H|[H|H]]]; discriminate H. Qed.
Lemma flags_text_pad : forall vs ns s f p, flags_text vs ns s f -> blank p -> flags_text vs ns (s ++ p) f.
Proof.
  intros vs ns s f p (ps & eff & fs & H1 & (lp & E & H2) & H3 & H4) Hp.
  assert (Hlast : last ps [] = lp) by (rewrite E; apply last_last).
  exists (removelast ps ++ [lp ++ p]). pose proof (splits_app s ps p H1) as S. rewrite Hlast in S.
  assert (Hd : forall c, In c p -> ~ delim c) by (intros c Hc; apply blank_not_delim; unfold blank in Hp; rewrite Forall_forall in Hp; auto).
  specialize (S Hd).
  destruct H2 as [[Hb ->]|[Hb ->]].
  - exists (removelast ps), fs. split; auto. split; auto. exists (lp ++ p). rewrite removelast_last. split; auto. left. split; auto. apply blank_app; auto.
  - exists (removelast ps ++ [lp ++ p]), fs. split; auto. split; [|split; auto].
    + exists (lp ++ p). rewrite removelast_last. split; auto. right. split; auto. rewrite blank_app; auto.
    + rewrite E in H3. apply Forall2_app_inv_l in H3 as (fs1 & fs2 & F1 & F2 & ->). apply Forall2_app; auto.
      inversion F2 as [|? v ? ? Hv Hnil]; subst. inversion Hnil; subst. constructor; auto.
      destruct Hv as (t & (a & b & Et & Ha & Hb' & Q) & Hval). exists t. split; auto.
      exists a, (b ++ p). rewrite Et. rewrite <- !app_assoc. split; [auto|]. split; [auto|]. split; [|exact Q]. unfold blank in *. apply Forall_app; auto.
Qed.

Section FlagsPad.
  Variable w : N.
  Variables (src : enum_source N) (vs : list N) (ns : list str).
  Hypothesis Hal : aligned (src_values src) (src_names src) vs ns.
  Hypothesis Hok : Forall (name_ok flags_reserved) ns.
  Hypothesis Hcov : bits_covered vs.

  Lemma put_flags_exact : forall os f,
    (forall s, api_flags_to_string w src f = Ok s -> exists t, put_flags w src os f = Ok (mk_ostream (os_out os ++ t) 0 (os_fill os) (os_left os)) /\ filled (os_fill os) (os_left os) (os_width os) s t) /\
    (api_flags_to_string w src f = Contract -> put_flags w src os f = Contract).
  Proof.
    intros os f. unfold api_flags_to_string, put_flags. rewrite (static_flags_metadata_ok _ _ _ Hal Hok Hcov). cbn [bind]. split.
    - intros s ->. cbn [bind]. destruct (os_put_filled os s) as (t & -> & F). eauto.
    - intros ->. reflexivity.
  Qed.

  Hypothesis Hnd : NoDup ns.
  Hypothesis Hclean : Forall (fun n => bare n /\ forall c, In c n -> ~ delim c) ns.
  Hypothesis Hspace : forall n, In n ns -> ~ starts_with_space n.
  Variable fill : ascii.
  Hypothesis Hfill : blank_char fill.

  Lemma put_flags_parts : forall os f, os_fill os = fill -> good_flags w vs f -> exists s pl pr,
    put_flags w src os f = Ok (mk_ostream (os_out os ++ pl ++ s ++ pr) 0 fill (os_left os)) /\
    Forall (fun c => ~ flags_reserved c) s /\ ~ starts_with_space s /\ (forall indet, api_parse_flags indet src s = Ok f) /\
    Forall blank_char pl /\ Forall blank_char pr.
  Proof.
    intros os f Hf Hg. destruct (text_shape w src vs ns Hal Hok Hcov Hnd Hclean Hspace f Hg) as (s & W & S1 & S2 & S3).
    destruct (put_flags_exact os f) as [P _]. destruct (P s W) as (t & Ht & F). apply filled_parts in F as (pl & pr & -> & F1 & F2 & _). exists s, pl, pr. rewrite Hf in *.
    repeat split; eauto using fill_all.
  Qed.
  Lemma blank_not_reserved : forall c, blank_char c -> ~ flags_reserved c.
  Proof.
    intros c Hc Hr. unfold flags_reserved in Hr. cbn in Hr. unfold blank_char in Hc. repeat (destruct Hr as [<-|Hr]; [cbn in Hc; lia|]). destruct Hr.
  Qed.
  Lemma extract_padded : forall sentry pre f s pl pr rest v0, good_flags w vs f -> Forall space_char pre -> Forall (fun c => ~ flags_reserved c) s -> ~ starts_with_space s ->
    (forall indet, api_parse_flags indet src s = Ok f) -> Forall blank_char pl -> Forall blank_char pr -> (forall c r, rest = c :: r -> flags_reserved c) ->
    extract_flags sentry src (mk_istream (pre ++ pl ++ s ++ pr ++ rest) false false) v0 = Ok (mk_istream rest (at_end rest) false, f).
  Proof.
    intros sentry pre f s pl pr rest v0 G Hpre Hs Hsp P Hpl Hpr Hr.
    assert (Hpl' : Forall space_char pl) by (eapply Forall_impl; [|exact Hpl]; apply blank_space).
    assert (Hpr' : Forall space_char pr) by (eapply Forall_impl; [|exact Hpr]; apply blank_space).
    destruct s as [|c s].
    - rewrite (app_assoc pre). cbn [app]. rewrite app_assoc. replace (((pre ++ pl) ++ pr) ++ rest) with (((pre ++ pl) ++ pr) ++ [] ++ rest) by reflexivity.
      apply (extract_text w src vs ns Hal Hok Hcov); auto. apply Forall_app; split; auto. apply Forall_app; auto.
    - rewrite (app_assoc pre), (app_assoc (c :: s)). apply (extract_text w src vs ns Hal Hok Hcov); auto.
      + apply Forall_app; auto.
      + apply Forall_app; split; auto. eapply Forall_impl; [|exact Hpr]. apply blank_not_reserved.
      + intros (d & r & E & Hd). apply Hsp. inversion E; subst. exists d, s. auto.
      + intros indet. destruct (parse_flags_exact src vs ns Hal Hok Hcov) as (v2 & n2 & R2 & Y). apply (Y indet). apply flags_text_pad; auto. apply (Y indet). apply P.
  Qed.

  Lemma flag_fields_read_back : forall sentry v0 l last pre os, os_fill os = fill ->
    Forall (fun f => good_flags w vs (fd_value f)) l -> good_flags w vs (fd_value last) -> fd_sep last = [] ->
    Forall (fun f => flags_separator (fd_sep f)) l -> Forall space_char pre ->
    exists t os' st, put_fields (put_flags w src) os (l ++ [last]) = Ok os' /\ os_out os' = os_out os ++ t /\ os_width os' = 0%Z /\
      read_flags sentry src v0 (mk_istream (pre ++ t) false false) (length l) = Ok (st, map fd_value l) /\
      extract_flags sentry src st v0 = Ok (mk_istream [] true false, fd_value last).
  Proof.
    intros sentry v0 l last. induction l as [|f l IH]; intros pre os Hf Hin Hlast Hls Hsep Hpre.
    - cbn [app put_fields]. destruct (put_flags_parts (mk_ostream (os_out os) (fd_width last) (os_fill os) (fd_left last)) (fd_value last) Hf Hlast) as (s & pl & pr & -> & S1 & S2 & S3 & F1 & F2).
      cbn [bind os_out os_left]. rewrite Hls.
      pose proof (put_unpadded (mk_ostream (os_out os ++ pl ++ s ++ pr) 0 fill (fd_left last)) []) as U. cbn [os_out os_fill os_left] in U. rewrite U. rewrite app_nil_r.
      exists (pl ++ s ++ pr). eexists. eexists. split; [reflexivity|]. cbn [os_out os_width]. split; auto. split; auto. split; [reflexivity|].
      replace (pre ++ pl ++ s ++ pr) with (pre ++ pl ++ s ++ pr ++ []) by (rewrite app_nil_r; auto). rewrite extract_padded with (f := fd_value last); auto. discriminate.
    - apply Forall_cons_iff in Hin as [Hv0 Hin']. apply Forall_cons_iff in Hsep as [(c & r & Es & Hc & Hr) Hsep'].
      cbn [app put_fields].
      destruct (put_flags_parts (mk_ostream (os_out os) (fd_width f) (os_fill os) (fd_left f)) (fd_value f) Hf Hv0) as (s & pl & pr & -> & S1 & S2 & S3 & F1 & F2).
      cbn [bind os_out os_left] in *.
      pose proof (put_unpadded (mk_ostream (os_out os ++ pl ++ s ++ pr) 0 fill (fd_left f)) (fd_sep f)) as U. cbn [os_out os_fill os_left] in U. rewrite U.
      destruct (IH r (mk_ostream ((os_out os ++ pl ++ s ++ pr) ++ fd_sep f) 0 fill (fd_left f)) eq_refl Hin' Hlast Hls Hsep' Hr) as (t & os' & st & P1 & P2 & P3 & P4 & P5).
      exists (pl ++ s ++ pr ++ fd_sep f ++ t), os', st. split; auto. split; [rewrite P2; cbn [os_out]; rewrite <- !app_assoc; auto|]. split; auto. split; auto.
      cbn [length read_flags map]. rewrite extract_padded with (f := fd_value f); auto.
      2:{ intros c' r' E. rewrite Es in E. injection E as <- _. exact Hc. }
      cbn [bind]. rewrite Es. cbn [app at_end]. unfold get1, is_good. cbn [is_eof is_fail is_buf negb andb]. rewrite P4. reflexivity.
  Qed.
End FlagsPad.
