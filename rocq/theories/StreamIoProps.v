(** Properties C77, C78: stream manipulators with exception masks, read errors and field widths. *)

From Coq Require Import String Ascii ZArith NArith Arith Bool Lia List.
From Verif Require Import Base SerializeModel SerializeSpec SerializeProofs SerializeFlagsProofs SerializeProps StreamModel StreamSpec StreamProofs StreamFlagsProofs StreamIoModel StreamIoSpec StreamIoProofs StreamPadProofs.
Import ListNotations.

(** C77, full statement: whatever the state and the exception mask of the stream and whatever its buffer does (it may
    throw), stream >> as_enum(v) and stream >> as_flags(v)
    - throw exactly if a bit of the exception mask is set afterwards, never drop state bits, and do not change the mask;
    - leave v alone if they throw;
    - leave v alone if they fail (stream.fail()), and otherwise set v to the value of the token;
    - set v to the value of the token if a complete token has been read.
    The last two are refuted below (read errors; eofbit in the mask; for flags also C10).  What holds: *)

(** For any stream buffer. *)
Theorem C77_enum_any_buffer_partial : forall (src : enum_source Z) vs ns,
  aligned (src_values src) (src_names src) vs ns -> Forall (name_ok enum_reserved) ns ->
  forall B (sgetc sbumpc : B -> B * buf_result) sentry fuel st v,
    match io_extract_enum sgetc sbumpc sentry fuel src st v with
    | Ok (st', v', x) =>
        io_mask st' = io_mask st /\ bits_kept (io_state st) (io_state st') /\
        (x <> None -> v' = v) /\
        (x = Some IosFailure -> masked (io_state st') (io_mask st')) /\
        (sentry = true ->
           (x <> None <-> masked (io_state st') (io_mask st')) /\
           (forall e, x = Some (Foreign e) -> st_bad (io_state st') = true /\ st_bad (io_mask st') = true)) /\
        (x = None -> ~ masked (io_state st) (io_mask st) -> ~ masked (io_state st') (io_mask st')) /\
        (x = None -> (exists tok, value_of_name vs ns tok v') \/ v' = v /\ st_fail (io_state st') = true)
    | OutOfFuel => True
    | _ => False
    end.
Proof.
  intros src vs ns Ha Ho B sg sb sentry fuel st v. destruct (io_enum_extract src vs ns Ha Ho) as (set & Hset & E). rewrite E.
  apply (extract_any (enum_parsed src vs ns) (value_of_name vs ns) (enum_parsed_named src vs ns Ha Ho) (enum_parsed_cases src vs ns Ha) enum_reserved set Hset).
Qed.
Print Assumptions C77_enum_any_buffer_partial.

Theorem C77_flags_any_buffer_partial : forall (src : enum_source N) vs ns,
  aligned (src_values src) (src_names src) vs ns -> Forall (name_ok flags_reserved) ns -> bits_covered vs ->
  exists vs' ns', reordered vs ns vs' ns' /\
  forall B (sgetc sbumpc : B -> B * buf_result) sentry fuel st v,
    match io_extract_flags sgetc sbumpc sentry fuel src st v with
    | Ok (st', v', x) =>
        io_mask st' = io_mask st /\ bits_kept (io_state st) (io_state st') /\
        (x <> None -> v' = v) /\
        (x = Some IosFailure -> masked (io_state st') (io_mask st')) /\
        (sentry = true ->
           (x <> None <-> masked (io_state st') (io_mask st')) /\
           (forall e, x = Some (Foreign e) -> st_bad (io_state st') = true /\ st_bad (io_mask st') = true)) /\
        (x = None -> ~ masked (io_state st) (io_mask st) -> ~ masked (io_state st') (io_mask st')) /\
        (x = None -> (exists tok, flags_text vs' ns' tok v') \/ v' = v /\ st_fail (io_state st') = true)
    | OutOfFuel => True
    | _ => False
    end.
Proof.
  intros src vs ns Ha Ho Hc. destruct (io_flags_extract src vs ns Ha Ho Hc) as (vs' & ns' & set & parsed & Hr & P1 & P2 & Hset & E).
  exists vs', ns'. split; auto. intros. rewrite E. apply (extract_any parsed (flags_text vs' ns') P1 P2 flags_reserved set Hset).
Qed.
Print Assumptions C77_flags_any_buffer_partial.

(** The fuel only bounds the number of characters read: more of it gives the same result. *)
Theorem C77_fuel : forall B (sgetc sbumpc : B -> B * buf_result) sentry fuel fuel' st,
  fuel <= fuel' ->
  (forall (src : enum_source Z) vs ns v y, aligned (src_values src) (src_names src) vs ns -> Forall (name_ok enum_reserved) ns ->
     io_extract_enum sgetc sbumpc sentry fuel src st v = Ok y -> io_extract_enum sgetc sbumpc sentry fuel' src st v = Ok y) /\
  (forall (src : enum_source N) vs ns v y, aligned (src_values src) (src_names src) vs ns -> Forall (name_ok flags_reserved) ns -> bits_covered vs ->
     io_extract_flags sgetc sbumpc sentry fuel src st v = Ok y -> io_extract_flags sgetc sbumpc sentry fuel' src st v = Ok y).
Proof.
  intros B sg sb sentry fuel fuel' st Hf. split; intros src vs ns v y Ha Ho.
  - destruct (io_enum_extract src vs ns Ha Ho) as (set & Hset & E). rewrite !E. apply extract_fuel; auto.
  - intros Hc. destruct (io_flags_extract src vs ns Ha Ho Hc) as (vs' & ns' & set & parsed & Hr & P1 & P2 & Hset & E). rewrite !E. apply extract_fuel; auto.
Qed.
Print Assumptions C77_fuel.

(** Finite buffers with read errors: exactly what happens, for every decomposition of the content into blanks, token and
    rest (there is one).  [stop m rest] tells how the stream is left after the token.  The condition excludes the old
    std::ws, which does not handle read errors; see below. *)
Theorem C77_enum_exact : forall (src : enum_source Z) vs ns,
  aligned (src_values src) (src_names src) vs ns -> Forall (name_ok enum_reserved) ns ->
  forall sentry b m v fuel, length b <= fuel ->
    (exists l tok rest, io_token enum_reserved b l tok rest) /\
    forall l tok rest, io_token enum_reserved b l tok rest -> (sentry = true \/ tok <> [] \/ forall e r, rest <> Err e :: r) ->
      let '(b', s, x) := stop m rest in
      (forall y, x = Some y -> io_extract_enum list_sgetc list_sbumpc sentry fuel src (mk_iostream b goodbit m) v = Ok (mk_iostream b' s m, v, Some y)) /\
      (forall z, x = None -> value_of_name vs ns tok z ->
         io_extract_enum list_sgetc list_sbumpc sentry fuel src (mk_iostream b goodbit m) v = Ok (mk_iostream b' s m, z, None)) /\
      (x = None -> ~ In tok ns ->
         io_extract_enum list_sgetc list_sbumpc sentry fuel src (mk_iostream b goodbit m) v =
         Ok (mk_iostream b' (mk_iostate (st_eof s) true (st_bad s)) m, v, if st_fail m then Some IosFailure else None)).
Proof.
  intros src vs ns Ha Ho sentry b m v fuel Hf. split; [apply (io_token_exists enum_forbidden_chars), enum_forbidden_iff|].
  intros l tok rest Ht Hs. destruct (io_enum_extract src vs ns Ha Ho) as (set & Hset & E).
  pose proof (extract_list (enum_parsed src vs ns) (value_of_name vs ns) (enum_parsed_named src vs ns Ha Ho) (enum_parsed_cases src vs ns Ha) enum_reserved set Hset sentry b l tok rest fuel m v Ht Hf Hs) as X.
  destruct (stop m rest) as [[b' s] x]. rewrite !E. destruct X as (X1 & X2 & X3). split; [auto|]. split; [auto|].
  intros Hx Hn. apply X3; auto. intros [z Hz]. apply Hn. eapply value_of_name_in; eauto.
Qed.
Print Assumptions C77_enum_exact.

Theorem C77_flags_exact : forall (src : enum_source N) vs ns,
  aligned (src_values src) (src_names src) vs ns -> Forall (name_ok flags_reserved) ns -> bits_covered vs ->
  exists vs' ns', reordered vs ns vs' ns' /\
  forall sentry b m v fuel, length b <= fuel ->
    (exists l tok rest, io_token flags_reserved b l tok rest) /\
    forall l tok rest, io_token flags_reserved b l tok rest -> (sentry = true \/ tok <> [] \/ forall e r, rest <> Err e :: r) ->
      let '(b', s, x) := stop m rest in
      (forall y, x = Some y -> io_extract_flags list_sgetc list_sbumpc sentry fuel src (mk_iostream b goodbit m) v = Ok (mk_iostream b' s m, v, Some y)) /\
      (forall z, x = None -> flags_text vs' ns' tok z ->
         io_extract_flags list_sgetc list_sbumpc sentry fuel src (mk_iostream b goodbit m) v = Ok (mk_iostream b' s m, z, None)) /\
      (x = None -> (~ exists z, flags_text vs' ns' tok z) ->
         io_extract_flags list_sgetc list_sbumpc sentry fuel src (mk_iostream b goodbit m) v =
         Ok (mk_iostream b' (mk_iostate (st_eof s) true (st_bad s)) m, v, if st_fail m then Some IosFailure else None)).
Proof.
  intros src vs ns Ha Ho Hc. destruct (io_flags_extract src vs ns Ha Ho Hc) as (vs' & ns' & set & parsed & Hr & P1 & P2 & Hset & E).
  exists vs', ns'. split; auto. intros sentry b m v fuel Hf. split; [apply (io_token_exists flags_forbidden_chars), flags_forbidden_iff|].
  intros l tok rest Ht Hs.
  pose proof (extract_list parsed (flags_text vs' ns') P1 P2 flags_reserved set Hset sentry b l tok rest fuel m v Ht Hf Hs) as X.
  destruct (stop m rest) as [[b' s] x]. rewrite !E. exact X.
Qed.
Print Assumptions C77_flags_exact.

(** std::ws without sentry: a read error before the token passes through whatever the exception mask is, and is not
    recorded in the state of the stream. *)
Theorem C77_old_ws : forall b l e rest fuel m, length b <= fuel ->
  (forall (src : enum_source Z) vs ns v, aligned (src_values src) (src_names src) vs ns -> Forall (name_ok enum_reserved) ns ->
     io_token enum_reserved b l [] (Err e :: rest) ->
     io_extract_enum list_sgetc list_sbumpc false fuel src (mk_iostream b goodbit m) v = Ok (mk_iostream rest goodbit m, v, Some (Foreign e))) /\
  (forall (src : enum_source N) vs ns v, aligned (src_values src) (src_names src) vs ns -> Forall (name_ok flags_reserved) ns -> bits_covered vs ->
     io_token flags_reserved b l [] (Err e :: rest) ->
     io_extract_flags list_sgetc list_sbumpc false fuel src (mk_iostream b goodbit m) v = Ok (mk_iostream rest goodbit m, v, Some (Foreign e))).
Proof.
  intros b l e rest fuel m Hf. split; intros src vs ns v Ha Ho.
  - intros Ht. destruct (io_enum_extract src vs ns Ha Ho) as (set & Hset & E). rewrite E. eapply extract_list_old; eauto.
  - intros Hc Ht. destruct (io_flags_extract src vs ns Ha Ho Hc) as (vs' & ns' & set & parsed & Hr & P1 & P2 & Hset & E). rewrite E. eapply extract_list_old; eauto.
Qed.
Print Assumptions C77_old_ws.

(** A stream that is not good, with a std::ws that conforms to the standard: nothing is read from the buffer and failbit
    is set; an enum variable is left alone. *)
Theorem C77_not_good : forall B (sgetc sbumpc : B -> B * buf_result) b s m fuel, ~ good s ->
  let s' := mk_iostate (st_eof s) true (st_bad s) in
  (forall (src : enum_source Z) vs ns v, aligned (src_values src) (src_names src) vs ns -> Forall (name_ok enum_reserved) ns ->
     (masked s' m -> io_extract_enum sgetc sbumpc true fuel src (mk_iostream b s m) v = Ok (mk_iostream b s' m, v, Some IosFailure)) /\
     (~ masked s' m -> io_extract_enum sgetc sbumpc true fuel src (mk_iostream b s m) v = Ok (mk_iostream b s' m, v, None))) /\
  (forall (src : enum_source N) vs ns v, aligned (src_values src) (src_names src) vs ns -> Forall (name_ok flags_reserved) ns -> bits_covered vs ->
     (masked s' m -> io_extract_flags sgetc sbumpc true fuel src (mk_iostream b s m) v = Ok (mk_iostream b s' m, v, Some IosFailure)) /\
     (~ masked s' m -> io_extract_flags sgetc sbumpc true fuel src (mk_iostream b s m) v = Ok (mk_iostream b s' m, 0%N, None))).
Proof.
  intros B sg sb b s m fuel Hg s'. assert (Es : iostate_or s failbit = s') by (unfold iostate_or, failbit, s'; cbn; rewrite !orb_false_r, orb_true_r; auto).
  pose proof (fun set => bad_token_read B sg sb set b s m fuel Hg) as T. rewrite Es in T.
  split; intros src vs ns v Ha Ho.
  - destruct (io_enum_extract src vs ns Ha Ho) as (set & Hset & E). rewrite E. unfold extract. rewrite T. split; intros M.
    + apply masked_iff in M. rewrite M. reflexivity.
    + apply unmasked_iff in M. rewrite M. cbn [bind enum_parsed Z.eqb negb setstate io_state io_mask io_buf].
      replace (iostate_or s' failbit) with s' by (unfold iostate_or, failbit, s'; cbn; rewrite !orb_false_r; auto). rewrite M. reflexivity.
  - intros Hc. destruct (io_flags_extract src vs ns Ha Ho Hc) as (vs' & ns' & set & parsed & Hr & P1 & P2 & Hset & E). rewrite E. unfold extract. rewrite T. split; intros M.
    + apply masked_iff in M. rewrite M. reflexivity.
    + apply unmasked_iff in M. rewrite M. cbn. rewrite (P1 [] v 0%N); [reflexivity|].
      exists [[]], [], []. split; [constructor; intros c []|]. split; [exists []; split; [reflexivity|left; split; [constructor|reflexivity]]|]. split; [constructor|].
      intros k. rewrite N.bits_0. split; [discriminate|intros (x & [] & _)].
Qed.
Print Assumptions C77_not_good.

(** Without read errors and without eofbit in the mask, the result is that of C09 and C10. *)
Theorem C77_agrees : forall b m fuel, length b <= fuel -> st_eof m = false ->
  (forall (src : enum_source Z) vs ns, aligned (src_values src) (src_names src) vs ns -> Forall (name_ok enum_reserved) ns ->
     forall sentry v, exists st v', extract_enum sentry src (mk_istream b false false) v = Ok (st, v') /\
       io_extract_enum list_sgetc list_sbumpc sentry fuel src (mk_iostream (map Ch b) goodbit m) v =
       Ok (mk_iostream (map Ch (is_buf st)) (mk_iostate (is_eof st) (is_fail st) false) m, v', if is_fail st && st_fail m then Some IosFailure else None)) /\
  (forall (src : enum_source N) vs ns, aligned (src_values src) (src_names src) vs ns -> Forall (name_ok flags_reserved) ns -> bits_covered vs ->
     forall sentry v, exists st v', extract_flags sentry src (mk_istream b false false) v = Ok (st, v') /\
       io_extract_flags list_sgetc list_sbumpc sentry fuel src (mk_iostream (map Ch b) goodbit m) v =
       Ok (mk_iostream (map Ch (is_buf st)) (mk_iostate (is_eof st) (is_fail st) false) m, v', if is_fail st && st_fail m then Some IosFailure else None)).
Proof.
  intros b m fuel Hf Hm.
  assert (Tk : forall rs l tok rest, one_token rs b l tok rest -> io_token rs (map Ch b) l tok (map Ch rest)).
  { intros rs l tok rest (-> & H1 & H2 & H3 & H4). split; [rewrite !map_app; auto|]. split; auto. split; [|split; auto].
    - intros c r E. rewrite <- map_app in E. destruct (tok ++ rest) as [|d u] eqn:Eu; [discriminate|]. inversion E; subst. eapply H2; eauto.
    - intros c r E. destruct rest as [|d u]; [discriminate|]. inversion E; subst. eapply H4; eauto. }
  assert (St : forall rest, stop m (map Ch rest) = (map Ch rest, mk_iostate (at_end rest) false false, None)).
  { intros [|c r]; cbn; rewrite ?Hm; reflexivity. }
  assert (Ne : forall rest e r, map Ch rest <> Err e :: r) by (intros [|c r0] e r; discriminate).
  split; intros src vs ns Ha Ho.
  - intros sentry v. destruct (extract_enum_exact src vs ns Ha Ho sentry b v) as ((l & tok & rest & Ht) & X & _). destruct (X l tok rest Ht) as [X1 X2].
    destruct (C77_enum_exact src vs ns Ha Ho sentry (map Ch b) m v fuel ltac:(rewrite map_length; auto)) as [_ Y]. specialize (Y l tok (map Ch rest) (Tk _ _ _ _ Ht) (or_intror (or_intror (Ne rest)))).
    rewrite St in Y. destruct Y as (_ & Y2 & Y3). destruct (in_dec (list_eq_dec ascii_dec) tok ns) as [Hi|Hn].
    + destruct (value_of_name_exists src vs ns Ha tok Hi) as [x Hx]. eexists _, x. split; [apply X1, Hx|]. cbn [is_buf is_eof is_fail andb]. apply Y2; auto.
    + eexists _, v. split; [apply X2, Hn|]. cbn [is_buf is_eof is_fail andb]. apply Y3; auto.
  - intros Hc sentry v. destruct (extract_flags_exact src vs ns Ha Ho Hc) as (v1 & n1 & R1 & X). destruct (C77_flags_exact src vs ns Ha Ho Hc) as (v2 & n2 & R2 & Y).
    destruct Ha as (_ & _ & L). destruct (reordered_unique _ _ _ _ _ _ L R1 R2) as [<- <-].
    destruct (X sentry b v) as ((l & tok & rest & Ht) & X' & _). destruct (X' l tok rest Ht) as [X1 X2].
    destruct (Y sentry (map Ch b) m v fuel ltac:(rewrite map_length; auto)) as [_ Y']. specialize (Y' l tok (map Ch rest) (Tk _ _ _ _ Ht) (or_intror (or_intror (Ne rest)))).
    rewrite St in Y'. destruct Y' as (_ & Y2 & Y3).
    assert (D : (exists f, flags_text v1 n1 tok f) \/ ~ exists f, flags_text v1 n1 tok f).
    { assert (L' : length v1 = length n1) by (destruct R1 as [A [B _]]; congruence).
      destruct (flags_from_string_spec v1 n1 [] tok 0%N false L') as [F1 [F2|[t [_ F3]]]]; [auto|]. right. intros [f Hf']. apply F1 in Hf'. congruence. }
    destruct D as [[f Hf']|Hn].
    + eexists _, f. split; [apply X1, Hf'|]. cbn [is_buf is_eof is_fail andb]. apply Y2; auto.
    + eexists _, v. split; [apply X2, Hn|]. cbn [is_buf is_eof is_fail andb]. apply Y3; auto.
Qed.
Print Assumptions C77_agrees.

Definition ex_buf (s1 : str) (e : exn) (s2 : str) : list buf_item := map Ch s1 ++ Err e :: map Ch s2.
Definition ex_mask := mk_iostate false true true.
Example C77_example :
  io_extract_enum list_sgetc list_sbumpc true 99 ex_color (mk_iostream (map Ch (lit " green,red")) goodbit ex_mask) 42 = Ok (mk_iostream (map Ch (lit ",red")) goodbit ex_mask, 1%Z, None) /\
  io_extract_enum list_sgetc list_sbumpc true 99 ex_color (mk_iostream (map Ch (lit " grey,red")) goodbit ex_mask) 42 = Ok (mk_iostream (map Ch (lit ",red")) failbit ex_mask, 42%Z, Some IosFailure) /\
  io_extract_enum list_sgetc list_sbumpc true 99 ex_color (mk_iostream (ex_buf (lit " gre") (UserException 7) (lit "en")) goodbit ex_mask) 42 =
    Ok (mk_iostream (map Ch (lit "en")) badbit ex_mask, 42%Z, Some (Foreign (UserException 7))) /\
  io_token enum_reserved (ex_buf (lit " gre") (UserException 7) (lit "en")) (lit " ") (lit "gre") (Err (UserException 7) :: map Ch (lit "en")) /\
  ~ good failbit /\ masked failbit ex_mask.
Proof.
  split; [vm_compute; reflexivity|]. split; [vm_compute; reflexivity|]. split; [vm_compute; reflexivity|]. split; [|split; [unfold good; cbn; intuition congruence|right; left; auto]].
  split; [reflexivity|]. split; [repeat constructor; right; reflexivity|]. split.
  - intros c r E. injection E as <- _. unfold space_char. vm_compute. intuition congruence.
  - split; [|discriminate]. pose proof ex_color_ok as H. rewrite Forall_forall in H. apply Forall_forall. intros c Hc. apply (H (lit "green")); simpl in *; intuition.
Qed.

(** A failed extraction may modify the variable: if the buffer reports an error in the middle of a token (and badbit is
    not in the exception mask), what has been read so far is taken for the token, and the exception of the buffer is
    swallowed.  Flags: also right after a delimiter. *)
Theorem C77_partial_token_refuted :
  (exists (src : enum_source Z) vs ns v v' e, aligned (src_values src) (src_names src) vs ns /\ Forall (name_ok enum_reserved) ns /\ v' <> v /\
    forall sentry f, io_extract_enum list_sgetc list_sbumpc sentry 99 src (mk_iostream (ex_buf (lit "red") e (lit "dish")) goodbit (mk_iostate false f false)) v =
      Ok (mk_iostream (map Ch (lit "dish")) badbit (mk_iostate false f false), v', None)) /\
  (exists (src : enum_source N) vs ns v v' e, aligned (src_values src) (src_names src) vs ns /\ Forall (name_ok flags_reserved) ns /\ bits_covered vs /\ v' <> v /\
    forall sentry f, io_extract_flags list_sgetc list_sbumpc sentry 99 src (mk_iostream (ex_buf (lit "tomato+") e (lit "onion")) goodbit (mk_iostate false f false)) v =
      Ok (mk_iostream (map Ch (lit "onion")) badbit (mk_iostate false f false), v', None)).
Proof.
  split.
  - exists ex_color. do 2 eexists. exists 42%Z, 0%Z, (UserException 7). split; [exact ex_color_aligned|]. split; [exact ex_color_ok|]. split; [discriminate|]. intros [] []; vm_compute; reflexivity.
  - exists ex_veg, ex_veg_vs, ex_veg_ns, 42%N, 1%N, (UserException 7). split; [exact ex_veg_aligned|]. split; [exact ex_veg_ok|]. split; [exact ex_veg_covered|]. split; [discriminate|]. intros [] []; vm_compute; reflexivity.
Qed.
Print Assumptions C77_partial_token_refuted.

(** With eofbit in the exception mask, a token that is ended by the end of the stream is consumed but not stored: every
    extraction that reaches the end throws and leaves the variable alone, although the token names a value. *)
Theorem C77_eof_mask : forall (src : enum_source Z) vs ns,
  aligned (src_values src) (src_names src) vs ns -> Forall (name_ok enum_reserved) ns ->
  forall n v sentry m fuel, In n ns -> ~ starts_with_space n -> st_eof m = true -> length n <= fuel ->
    io_extract_enum list_sgetc list_sbumpc sentry fuel src (mk_iostream (map Ch n) goodbit m) v = Ok (mk_iostream [] eofbit m, v, Some IosFailure).
Proof.
  intros src vs ns Ha Ho n v sentry m fuel Hn Hs Hm Hf.
  destruct (C77_enum_exact src vs ns Ha Ho sentry (map Ch n) m v fuel ltac:(rewrite map_length; auto)) as [_ Y].
  assert (Ht : io_token enum_reserved (map Ch n) [] n []).
  { split; [rewrite app_nil_r; auto|]. split; auto. split; [|split; [|discriminate]].
    - intros c r E Hc. apply Hs. rewrite app_nil_r in E. destruct n as [|d n]; [discriminate|]. inversion E; subst. exists c, n. auto.
    - apply Forall_forall. intros c Hc. rewrite Forall_forall in Ho. apply (Ho n Hn); auto. }
  specialize (Y [] n [] Ht (or_intror (or_intror (fun e r (E : [] = Err e :: r) => eq_ind [] (fun l => match l with [] => True | _ => False end) I _ E)))).
  cbn in Y. rewrite Hm in Y. destruct Y as (Y & _). apply Y. auto.
Qed.
Print Assumptions C77_eof_mask.
Example C77_eof_example : In (lit "green") [lit "red"; lit "green"; lit "blue"] /\ ~ starts_with_space (lit "green") /\
  io_extract_enum list_sgetc list_sbumpc true 99 ex_color (mk_iostream (map Ch (lit "green")) goodbit eofbit) 42 = Ok (mk_iostream [] eofbit eofbit, 42%Z, Some IosFailure).
Proof.
  split; [simpl; auto|]. split; [|vm_compute; reflexivity]. intros (c & r & E & Hc). injection E as <- _. revert Hc. unfold space_char. vm_compute. intuition congruence.
Qed.

Theorem C77_eof_mask_refuted : exists (src : enum_source Z) vs ns n v x m, aligned (src_values src) (src_names src) vs ns /\ Forall (name_ok enum_reserved) ns /\
  value_of_name vs ns n x /\ v <> x /\
  forall sentry, io_extract_enum list_sgetc list_sbumpc sentry 99 src (mk_iostream (map Ch n) goodbit m) v = Ok (mk_iostream [] eofbit m, v, Some IosFailure).
Proof.
  exists ex_color. do 2 eexists. exists (lit "green"), 42%Z, 1%Z, eofbit. split; [exact ex_color_aligned|]. split; [exact ex_color_ok|]. split.
  - exists 1. split; [|reflexivity]. split; [reflexivity|]. intros [|j] Hj; [cbn; discriminate|lia].
  - split; [discriminate|]. intros []; vm_compute; reflexivity.
Qed.
Print Assumptions C77_eof_mask_refuted.

(** C78: output with a field width.  The name of an enumerator, or the whole text of a combination of flags, is padded as
    one string; the width is reset; a value without name is a contract violation, and then nothing is written. *)
Theorem C78_enum_padded : forall (src : enum_source Z) vs ns,
  aligned (src_values src) (src_names src) vs ns -> Forall (name_ok enum_reserved) ns ->
  forall os v,
    (forall n, name_of_value vs ns v n -> exists t, put_enum src os v = Ok (mk_ostream (os_out os ++ t) 0 (os_fill os) (os_left os)) /\ filled (os_fill os) (os_left os) (os_width os) n t) /\
    (~ In v vs -> put_enum src os v = Contract).
Proof. exact put_enum_exact. Qed.
Print Assumptions C78_enum_padded.

Theorem C78_flags_padded : forall w (src : enum_source N) vs ns,
  aligned (src_values src) (src_names src) vs ns -> Forall (name_ok flags_reserved) ns -> bits_covered vs ->
  forall os f,
    (forall s, api_flags_to_string w src f = Ok s -> exists t, put_flags w src os f = Ok (mk_ostream (os_out os ++ t) 0 (os_fill os) (os_left os)) /\ filled (os_fill os) (os_left os) (os_width os) s t) /\
    (api_flags_to_string w src f = Contract -> put_flags w src os f = Contract).
Proof. exact put_flags_exact. Qed.
Print Assumptions C78_flags_padded.

(** Columns padded with blanks are read back, whatever the widths and adjustments: enumerators separated by blanks (or, if
    right-adjusted, by any reserved character, which the reader skips)... *)
Theorem C78_enum_columns_read_back : forall (src : enum_source Z) vs ns,
  aligned (src_values src) (src_names src) vs ns -> Forall (name_ok enum_reserved) ns -> NoDup ns -> (forall n, In n ns -> ~ starts_with_space n) ->
  forall fill, blank_char fill ->
  forall sentry skip v0 l last pre os, os_fill os = fill ->
    Forall (fun f => In (fd_value f) vs) l -> In (fd_value last) vs -> fd_sep last = [] ->
    Forall (fun f => if (skip : bool) then reserved_separator (fd_sep f) /\ fd_left f = false else blank_separator (fd_sep f)) l ->
    Forall space_char pre ->
    exists t os' st rest,
      put_fields (put_enum src) os (l ++ [last]) = Ok os' /\ os_out os' = os_out os ++ t /\
      read_enums sentry skip src v0 (mk_istream (pre ++ t) false false) (length l) = Ok (st, map fd_value l) /\
      extract_enum sentry src st v0 = Ok (mk_istream rest (at_end rest) false, fd_value last) /\ Forall blank_char rest.
Proof.
  intros src vs ns Ha Ho Hn Hs fill Hb sentry skip v0 l last pre os H1 H2 H3 H4 H5 H6.
  destruct (fields_read_back src vs ns Ha Ho Hn Hs fill Hb sentry skip v0 l last pre os H1 H2 H3 H4 H5 H6) as (t & os' & st & rest & P1 & P2 & _ & P3). eauto 10.
Qed.
Print Assumptions C78_enum_columns_read_back.

(** ... and combinations of flags separated by reserved characters. *)
Theorem C78_flags_columns_read_back : forall w (src : enum_source N) vs ns,
  aligned (src_values src) (src_names src) vs ns -> Forall (name_ok flags_reserved) ns -> bits_covered vs -> NoDup ns ->
  Forall (fun n => bare n /\ forall c, In c n -> ~ delim c) ns -> (forall n, In n ns -> ~ starts_with_space n) ->
  forall fill, blank_char fill ->
  let writable f := (f < 2 ^ w)%N /\ forall k, N.testbit f k = true -> bit_defined vs k in
  forall sentry v0 l last pre os, os_fill os = fill ->
    Forall (fun f => writable (fd_value f)) l -> writable (fd_value last) -> fd_sep last = [] ->
    Forall (fun f => flags_separator (fd_sep f)) l -> Forall space_char pre ->
    exists t os' st, put_fields (put_flags w src) os (l ++ [last]) = Ok os' /\ os_out os' = os_out os ++ t /\
      read_flags sentry src v0 (mk_istream (pre ++ t) false false) (length l) = Ok (st, map fd_value l) /\
      extract_flags sentry src st v0 = Ok (mk_istream [] true false, fd_value last).
Proof.
  intros w src vs ns Ha Ho Hc Hn Hcl Hs fill Hb writable sentry v0 l last pre os H1 H2 H3 H4 H5 H6.
  destruct (flag_fields_read_back w src vs ns Ha Ho Hc Hn Hcl Hs fill Hb sentry v0 l last pre os H1 H2 H3 H4 H5 H6) as (t & os' & st & P1 & P2 & _ & P3). eauto 10.
Qed.
Print Assumptions C78_flags_columns_read_back.

Example C78_example :
  put_enum ex_color (mk_ostream (lit "[") 7 "." false) 1 = Ok (mk_ostream (lit "[..green") 0 "." false) /\
  put_fields (put_enum ex_color) (mk_ostream [] 0 " " false) [mk_field 1%Z 7%Z true (lit " "); mk_field 0%Z 7%Z false (lit " "); mk_field (-5)%Z 7%Z true []] =
    Ok (mk_ostream (lit "green       red blue   ") 0 " " true) /\
  (do ' (st, vs) <- read_enums true false ex_color 9 (mk_istream (lit "green       red blue   ") false false) 2;
   do ' (st, v) <- extract_enum true ex_color st 9; Ok (st, vs, v)) = Ok (mk_istream (lit "   ") false false, [1%Z; 0%Z], (-5)%Z) /\
  put_fields (put_flags 8 ex_veg) (mk_ostream [] 0 " " false) [mk_field 3%N 14%Z true (lit ","); mk_field 1%N 8%Z false []] =
    Ok (mk_ostream (lit "tomato+onion  ,  tomato") 0 " " false) /\
  (do ' (st, vs) <- read_flags true ex_veg 9 (mk_istream (lit "tomato+onion  ,  tomato") false false) 1;
   do ' (st, v) <- extract_flags true ex_veg st 9; Ok (st, vs, v)) = Ok (mk_istream [] true false, [3%N], 1%N) /\
  blank_char " " /\ blank_separator (lit " ").
Proof.
  repeat (split; [vm_compute; reflexivity|]). split; [left; reflexivity|]. exists " "%char, []. split; [reflexivity|]. split; [left; reflexivity|constructor].
Qed.
