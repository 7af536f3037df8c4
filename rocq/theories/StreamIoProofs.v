(** Proofs about stream extraction with exception masks and read errors. *)

From Coq Require Import String Ascii ZArith NArith Arith Bool Lia List.
From Verif Require Import Base SerializeModel SerializeSpec SerializeProofs SerializeFlagsProofs StreamModel StreamSpec StreamProofs StreamIoModel StreamIoSpec.
Import ListNotations.

Lemma masked_iff : forall s m, iostate_none (iostate_and s m) = false <-> masked s m.
Proof. intros [[] [] []] [[] [] []]; unfold iostate_none, iostate_and, masked; cbn; intuition congruence. Qed.
Lemma unmasked_iff : forall s m, iostate_none (iostate_and s m) = true <-> ~ masked s m.
Proof. intros s m. rewrite <- masked_iff. destruct (iostate_none _); intuition congruence. Qed.
Lemma none_good : forall s, iostate_none s = true <-> good s.
Proof. intros [[] [] []]; unfold iostate_none, good; cbn; intuition congruence. Qed.
Lemma good_unmasked : forall s m, good s -> ~ masked s m.
Proof. intros s m (A & B & C) [[]|[[]|[]]]; congruence. Qed.
Lemma good_eq : forall s, good s -> s = goodbit.
Proof. intros [] (A & B & C). cbn in *. subst. auto. Qed.
Lemma kept_refl : forall s, bits_kept s s.
Proof. intros s. repeat split; auto. Qed.
Lemma kept_trans : forall a b c, bits_kept a b -> bits_kept b c -> bits_kept a c.
Proof. intros a b c (A & B & C) (D & E & F). repeat split; auto. Qed.
Lemma kept_or : forall a b, bits_kept a (iostate_or a b).
Proof. intros [[] [] []] b; repeat split; cbn; auto; discriminate. Qed.

Section AnyBuffer.
  Variable B : Type.
  Variables sgetc sbumpc : B -> B * buf_result.
  Local Notation iostream := (iostream B).
  Local Notation io := (io B).

  (** What every computation satisfies.  [strict]: exceptions of the buffer set badbit. *)
  Definition sound {A} (strict : bool) (m : io A) : Prop := forall st,
    match m st with
    | Ok (st', r) =>
        io_mask st' = io_mask st /\ bits_kept (io_state st) (io_state st') /\
        match r with
        | Ret _ => ~ masked (io_state st) (io_mask st) -> ~ masked (io_state st') (io_mask st')
        | Raise IosFailure => masked (io_state st') (io_mask st')
        | Raise (Foreign _) => strict = true -> st_bad (io_state st') = true /\ st_bad (io_mask st') = true
        end
    | OutOfFuel => True
    | _ => False
    end.
  Lemma sound_ret : forall A s (a : A), sound s (io_ret B a).
  Proof. intros A s a st. cbn. repeat split; auto. Qed.
  Lemma sound_bind : forall A C s (m : io A) (f : A -> io C), sound s m -> (forall a, sound s (f a)) -> sound s (io_bind B m f).
  Proof.
    intros A C s m f Hm Hf st. unfold io_bind. specialize (Hm st). destruct (m st) as [[st' r]| | | | |]; cbn [bind]; auto.
    destruct Hm as (M1 & M2 & M3). destruct r as [a|x].
    - specialize (Hf a st'). destruct (f a st') as [[st2 r2]| | | | |]; auto. destruct Hf as (F1 & F2 & F3).
      split; [congruence|]. split; [eapply kept_trans; eauto|]. destruct r2 as [|[]]; auto.
    - split; auto.
  Qed.
  Lemma sound_fuel : forall A s, sound s (fun _ : iostream => OutOfFuel (A := iostream * io_out A)).
  Proof. intros A s st. exact I. Qed.
  Lemma sound_lift : forall A s (m : outcome A), (exists a, m = Ok a) -> sound s (io_lift B m).
  Proof. intros A s m [a ->] st. cbn. repeat split; auto. Qed.
  Lemma sound_good : forall s, sound s (io_good B).
  Proof. intros s st. cbn. repeat split; auto. Qed.
  Lemma sound_setstate : forall s b, sound s (setstate B b).
  Proof.
    intros s b st. unfold setstate. cbn. split; auto. split; [apply kept_or|].
    destruct (iostate_none _) eqn:E; cbn.
    - intros _. apply unmasked_iff; auto.
    - apply masked_iff; auto.
  Qed.
  Lemma sound_exception : forall s e, sound s (input_exception B e).
  Proof.
    intros s e st. unfold input_exception. cbn. split; auto. split; [apply kept_or|]. destruct (st_bad (io_mask st)) eqn:E; cbn.
    - intros _. rewrite orb_true_r. auto.
    - intros H [[]|[[]|[]]]; cbn in *; rewrite ?orb_false_r in *; apply H; unfold masked; auto; congruence.
  Qed.
  Lemma sound_buf : forall s f, sound s (buf_call B f).
  Proof. intros s f st. unfold buf_call. destruct (f (io_buf st)). cbn. repeat split; auto. Qed.
  Local Hint Resolve sound_ret sound_bind sound_fuel sound_good sound_setstate sound_exception sound_buf : snd.
  Ltac snd := repeat (apply sound_bind; [solve [auto with snd]|intros]); auto with snd.
  Lemma sound_sentry : forall s, sound s (sentry_ B).
  Proof. intros s. unfold sentry_. snd. destruct a; snd. Qed.
  Local Hint Resolve sound_sentry : snd.
  Lemma sound_peek : forall s, sound s (io_peek B sgetc).
  Proof. intros s. unfold io_peek. snd. destruct a; snd. destruct a; snd. Qed.
  Lemma sound_get : forall s, sound s (io_get B sbumpc).
  Proof. intros s. unfold io_get. snd. destruct a; snd. destruct a; snd. Qed.
  Local Hint Resolve sound_peek sound_get : snd.
  Lemma sound_ws_loop : forall s fuel r, sound s (io_ws_loop B sgetc sbumpc fuel r).
  Proof.
    intros s fuel. induction fuel as [|fuel IH]; intros [c| |e]; cbn [io_ws_loop]; snd; destruct (is_space c); snd.
  Qed.
  Local Hint Resolve sound_ws_loop : snd.
  Lemma sound_ws : forall sentry fuel, sound sentry (io_ws B sgetc sbumpc sentry fuel).
  Proof.
    intros sentry fuel. unfold io_ws. apply sound_bind. { destruct sentry; [apply sound_sentry|apply sound_ret]. } intros ok. destruct ok; snd. destruct a0; snd.
    destruct sentry; snd. intros st. cbn. repeat split; auto; discriminate.
  Qed.
  Lemma sound_read_loop : forall s set, (forall c, exists b, char_bitset_contains set c = Ok b) ->
    forall fuel acc, sound s (io_read_loop B sgetc sbumpc fuel set acc).
  Proof.
    intros s set Hset fuel. induction fuel as [|fuel IH]; intros acc; cbn [io_read_loop]; snd; destruct a; snd; destruct a; snd;
      (apply sound_bind; [apply sound_lift; auto|]; intros f; destruct f; snd).
  Qed.

  (** After std::ws with a sentry, no masked bit is set unless an exception was thrown. *)
  Lemma ws_unmasked : forall fuel st st' u, io_ws B sgetc sbumpc true fuel st = Ok (st', Ret u) -> ~ masked (io_state st') (io_mask st').
  Proof.
    intros fuel st st' u H. destruct (iostate_none (io_state st)) eqn:G.
    - pose proof (sound_ws true fuel st) as S. rewrite H in S. destruct S as (S1 & S2 & S3). apply S3. apply good_unmasked, none_good, G.
    - unfold io_ws, sentry_, io_bind, io_good in H. cbn [bind] in H. rewrite G in H. unfold setstate in H. cbn [bind] in H.
      destruct (iostate_none (iostate_and _ _)) eqn:E; cbn in H; inversion H; subst; clear H. cbn. apply unmasked_iff, E.
  Qed.

  (** Reading a token. *)
  Definition token_read (sentry : bool) (fuel : nat) (set : char_bitset) : io str :=
    io_bind B (io_ws B sgetc sbumpc sentry fuel) (fun _ => io_read_loop B sgetc sbumpc fuel set []).
  Lemma token_read_sound : forall set, (forall c, exists b, char_bitset_contains set c = Ok b) -> forall sentry fuel, sound sentry (token_read sentry fuel set).
  Proof. intros set Hset sentry fuel. apply sound_bind; [apply sound_ws|]. intros _. apply sound_read_loop; auto. Qed.
  Lemma token_read_unmasked : forall set, (forall c, exists b, char_bitset_contains set c = Ok b) -> forall fuel st st' s,
    token_read true fuel set st = Ok (st', Ret s) -> ~ masked (io_state st') (io_mask st').
  Proof.
    intros set Hset fuel st st' s H. unfold token_read, io_bind in H.
    pose proof (sound_ws true fuel st) as S. destruct (io_ws _ _ _ _ _ _) as [[st1 [u|x]]| | | | |] eqn:E; cbn [bind] in H; try discriminate.
    apply ws_unmasked in E. pose proof (sound_read_loop true set Hset fuel [] st1) as R. rewrite H in R. destruct R as (_ & _ & R). auto.
  Qed.

  (** More fuel does not change a result. *)
  Lemma ws_loop_fuel : forall fuel fuel' r st y, fuel <= fuel' -> io_ws_loop B sgetc sbumpc fuel r st = Ok y -> io_ws_loop B sgetc sbumpc fuel' r st = Ok y.
  Proof.
    induction fuel as [|fuel IH]; intros fuel' r st y Hf H; destruct r as [c| |e]; destruct fuel' as [|fuel']; cbn [io_ws_loop] in *; try assumption; try lia;
      destruct (is_space c); try assumption; try discriminate.
    unfold io_bind in *. destruct (buf_call _ _ st) as [[st' [a|x]]| | | | |]; cbn [bind] in *; auto. eapply IH; eauto. lia.
  Qed.
  Lemma ws_fuel : forall sentry fuel fuel' st y, fuel <= fuel' -> io_ws B sgetc sbumpc sentry fuel st = Ok y -> io_ws B sgetc sbumpc sentry fuel' st = Ok y.
  Proof.
    intros sentry fuel fuel' st y Hf. unfold io_ws, io_bind. destruct ((if sentry then sentry_ B else io_ret B true) st) as [[st1 [[]|x]]| | | | |]; cbn [bind]; auto.
    destruct (buf_call _ _ st1) as [[st2 [a|x]]| | | | |]; cbn [bind]; auto.
    destruct (io_ws_loop B sgetc sbumpc fuel a st2) as [y1| | | | |] eqn:E; cbn [bind]; try discriminate.
    rewrite (ws_loop_fuel _ _ _ _ _ Hf E). cbn [bind]. auto.
  Qed.
  Lemma read_loop_fuel : forall set fuel fuel' acc st y, fuel <= fuel' -> io_read_loop B sgetc sbumpc fuel set acc st = Ok y -> io_read_loop B sgetc sbumpc fuel' set acc st = Ok y.
  Proof.
    intros set. induction fuel as [|fuel IH]; intros fuel' acc st y Hf H.
    - destruct fuel' as [|fuel']; auto. cbn [io_read_loop] in *. unfold io_bind in *. cbn [bind io_good] in *. destruct (iostate_none _); auto.
      destruct (io_peek _ _ _) as [[st' [[c|]|x]]| | | | |]; cbn [bind] in *; auto. unfold io_lift in *. destruct (char_bitset_contains set c) as [[]| | | | |]; cbn [bind] in *; auto; discriminate.
    - destruct fuel' as [|fuel']; [lia|]. cbn [io_read_loop] in *. unfold io_bind in *. cbn [bind io_good] in *. destruct (iostate_none _); auto.
      destruct (io_peek _ _ _) as [[st' [[c|]|x]]| | | | |]; cbn [bind] in *; auto. unfold io_lift in *. destruct (char_bitset_contains set c) as [[]| | | | |]; cbn [bind] in *; auto.
      destruct (io_get _ _ _) as [[st2 [ci|x]]| | | | |]; cbn [bind] in *; auto. eapply IH; eauto. lia.
  Qed.
  Lemma token_read_fuel : forall set sentry fuel fuel' st y, fuel <= fuel' -> token_read sentry fuel set st = Ok y -> token_read sentry fuel' set st = Ok y.
  Proof.
    intros set sentry fuel fuel' st y Hf. unfold token_read, io_bind. destruct (io_ws _ _ _ sentry fuel st) as [y1| | | | |] eqn:E; cbn [bind]; try discriminate.
    rewrite (ws_fuel _ _ _ _ _ Hf E). cbn [bind]. destruct y1 as [st1 [u|x]]; auto. apply read_loop_fuel; auto.
  Qed.
End AnyBuffer.

(** Finite buffers. *)
Lemma list_ws_loop : forall l x fuel s m, Forall space_char l -> (forall c r, x = Ch c :: r -> ~ space_char c) -> length l <= fuel ->
  io_ws_loop _ list_sgetc list_sbumpc fuel (snd (list_sgetc (map Ch l ++ x))) (mk_iostream (fst (list_sgetc (map Ch l ++ x))) s m) =
  Ok (mk_iostream (fst (list_sgetc x)) s m, Ret (snd (list_sgetc x))).
Proof.
  induction l as [|c l IH]; intros x fuel s m Hl Hx Hf.
  - cbn [map app]. destruct x as [|[c|e] r]; cbn [list_sgetc fst snd]; try (destruct fuel; reflexivity).
    assert (E : is_space c = false) by (apply is_space_false; eapply Hx; eauto).
    destruct fuel; cbn [io_ws_loop]; rewrite E; reflexivity.
  - inversion Hl; subst. cbn [map app list_sgetc fst snd length] in *. destruct fuel as [|fuel]; [lia|]. cbn [io_ws_loop].
    rewrite (proj2 (is_space_iff c)) by auto. unfold io_bind, buf_call, snextc. cbn [io_buf io_state io_mask list_sbumpc].
    destruct (list_sgetc (map Ch l ++ x)) as [b r] eqn:E. cbn [bind].
    specialize (IH x fuel s m H2 Hx ltac:(lia)). rewrite E in IH. exact IH.
Qed.

Definition stopped {A} (m : iostate) (rest : list buf_item) (a : A) : iostream (list buf_item) * io_out A :=
  let '(b, s, x) := stop m rest in (mk_iostream b s m, match x with Some x => Raise x | None => Ret a end).

Lemma list_read_loop : forall set (reserved : ascii -> Prop), (forall c, exists b, char_bitset_contains set c = Ok b /\ (b = true <-> reserved c)) ->
  forall tok rest acc fuel m, Forall (fun c => ~ reserved c) tok -> (forall c r, rest = Ch c :: r -> reserved c) -> length tok <= fuel ->
  io_read_loop _ list_sgetc list_sbumpc fuel set acc (mk_iostream (map Ch tok ++ rest) goodbit m) = Ok (stopped m rest (acc ++ tok)).
Proof.
  intros set rs Hset. induction tok as [|c tok IH]; intros rest acc fuel m Ht Hr Hf.
  - rewrite app_nil_r. cbn [map app]. destruct rest as [|[c|e] r].
    + assert (E : (do ' (st, r) <- io_peek _ list_sgetc (mk_iostream (@nil buf_item) goodbit m); match r with Ret _ => Ok (st, Ret acc) | Raise x => Ok (st, Raise x) end) = Ok (stopped m [] acc)).
      { destruct m as [[] [] []]; reflexivity. }
      destruct fuel; cbn [io_read_loop]; unfold io_bind at 1; cbn [io_good bind io_state iostate_none goodbit st_eof st_fail st_bad negb andb]; unfold io_bind;
        destruct m as [[] [] []]; reflexivity.
    + destruct (Hset c) as [b [E Hb]]. assert (b = true) by (apply Hb; eapply Hr; eauto). subst b.
      destruct fuel; cbn [io_read_loop]; unfold io_bind at 1; cbn; unfold io_bind; cbn; unfold io_lift; rewrite E; reflexivity.
    + destruct fuel; destruct m as [[] [] []]; reflexivity.
  - inversion Ht; subst. cbn [length] in Hf. destruct fuel as [|fuel]; [lia|]. destruct (Hset c) as [b [E Hb]].
    destruct b; [exfalso; apply H1, Hb; auto|].
    assert (Step : io_read_loop _ list_sgetc list_sbumpc (S fuel) set acc (mk_iostream (map Ch (c :: tok) ++ rest) goodbit m) =
                   io_read_loop _ list_sgetc list_sbumpc fuel set (acc ++ [c]) (mk_iostream (map Ch tok ++ rest) goodbit m)).
    { cbn [io_read_loop map app]. unfold io_lift. unfold io_bind. cbn. rewrite E. reflexivity. }
    rewrite Step. rewrite IH; auto; try lia. rewrite <- app_assoc. reflexivity.
Qed.

Lemma list_token_read : forall set (reserved : ascii -> Prop), (forall c, exists b, char_bitset_contains set c = Ok b /\ (b = true <-> reserved c)) ->
  forall sentry b l tok rest fuel m, io_token reserved b l tok rest -> length b <= fuel -> (sentry = true \/ tok <> [] \/ forall e r, rest <> Err e :: r) ->
  token_read _ list_sgetc list_sbumpc sentry fuel set (mk_iostream b goodbit m) = Ok (stopped m rest tok).
Proof.
  intros set rs Hset sentry b l tok rest fuel m (-> & Hl & Hx & Ht & Hr) Hf Hs. rewrite !app_length, !map_length in Hf.
  assert (W : io_ws _ list_sgetc list_sbumpc sentry fuel (mk_iostream (map Ch l ++ map Ch tok ++ rest) goodbit m) =
              match tok, rest with
              | [], [] => Ok (stopped m [] tt)
              | [], Err e :: r => Ok (stopped m rest tt)
              | _, _ => Ok (mk_iostream (map Ch tok ++ rest) goodbit m, Ret tt)
              end).
  { assert (S : (if sentry then sentry_ (list buf_item) else io_ret _ true) (mk_iostream (map Ch l ++ map Ch tok ++ rest) goodbit m) =
                Ok (mk_iostream (map Ch l ++ map Ch tok ++ rest) goodbit m, Ret true)) by (destruct sentry; reflexivity).
    unfold io_ws, io_bind. rewrite S. cbn [bind]. unfold buf_call at 1. cbn [io_buf io_state io_mask].
    pose proof (list_ws_loop l (map Ch tok ++ rest) fuel goodbit m Hl Hx ltac:(lia)) as L.
    destruct (list_sgetc (map Ch l ++ map Ch tok ++ rest)) as [b1 r1] eqn:E. cbn [fst snd bind] in *. rewrite L. cbn [bind].
    destruct tok as [|c tok]; cbn [map app] in *; [|reflexivity].
    destruct rest as [|[c|e] r]; cbn [list_sgetc fst snd]; [destruct m as [[] [] []]; reflexivity|reflexivity|].
    destruct sentry; [destruct m as [[] [] []]; reflexivity|]. exfalso. destruct Hs as [?|[?|?]]; [discriminate|congruence|]. eapply H; eauto. }
  unfold token_read, io_bind. rewrite W. pose proof (fun acc => list_read_loop set rs Hset tok rest acc fuel m Ht Hr ltac:(lia)) as R.
  destruct tok as [|c tok]; [destruct rest as [|[c|e] r]|]; cbn [bind].
  - unfold stopped, stop. destruct (st_eof m); [reflexivity|]. destruct fuel; reflexivity.
  - cbn [map app] in R. rewrite R. reflexivity.
  - unfold stopped, stop. destruct (st_bad m); [reflexivity|]. destruct fuel; reflexivity.
  - rewrite R. reflexivity.
Qed.

(** A token that cannot start with an error for std::ws without sentry. *)
Lemma list_token_read_old : forall set (reserved : ascii -> Prop) b l e rest fuel m, io_token reserved b l [] (Err e :: rest) -> length b <= fuel ->
  token_read _ list_sgetc list_sbumpc false fuel set (mk_iostream b goodbit m) = Ok (mk_iostream rest goodbit m, Raise (Foreign e)).
Proof.
  intros set rs b l e rest fuel m (-> & Hl & Hx & _ & _) Hf. rewrite !app_length, !map_length in Hf. cbn [map app] in *.
  unfold token_read, io_ws. unfold io_bind at 1 2. cbn [io_ret bind]. unfold io_bind at 1. unfold buf_call at 1. cbn [io_buf io_state io_mask].
  pose proof (list_ws_loop l (Err e :: rest) fuel goodbit m Hl Hx ltac:(lia)) as L.
  destruct (list_sgetc (map Ch l ++ Err e :: rest)) as [b1 r1] eqn:E. cbn [fst snd bind] in *. unfold io_bind. rewrite L. reflexivity.
Qed.

(** Streams that are not good. *)
Lemma bad_token_read : forall B sgetc sbumpc set b s m fuel, ~ good s ->
  token_read B sgetc sbumpc true fuel set (mk_iostream b s m) =
  Ok (mk_iostream b (iostate_or s failbit) m, if iostate_none (iostate_and (iostate_or s failbit) m) then Ret [] else Raise IosFailure).
Proof.
  intros B sg sb set b s m fuel H. assert (E : iostate_none s = false). { destruct (iostate_none s) eqn:E; auto. exfalso. apply H, none_good, E. }
  unfold token_read, io_ws, sentry_, io_bind, io_good, setstate. cbn [bind io_state io_mask io_buf]. rewrite E. cbn [bind io_state io_mask io_buf].
  destruct (iostate_none (iostate_and _ _)); cbn [bind io_ret]; [|reflexivity].
  destruct fuel; cbn [io_read_loop]; unfold io_bind, io_good; cbn [bind io_state]; unfold iostate_none, iostate_or, failbit; cbn [st_eof st_fail st_bad]; rewrite orb_true_r, andb_false_r; reflexivity.
Qed.

Lemma io_token_exists : forall (forbidden : str) (reserved : ascii -> Prop), (forall c, In c forbidden <-> reserved c) ->
  forall b, exists l tok rest, io_token reserved b l tok rest.
Proof.
  intros fb rs Hiff b.
  assert (P : exists t x, b = map Ch t ++ x /\ (x = [] \/ exists e r, x = Err e :: r)).
  { induction b as [|[c|e] r (t & x & -> & H)].
    - exists [], []. auto.
    - exists (c :: t), x. auto.
    - exists [], (Err e :: map Ch t ++ x). split; eauto. }
  destruct P as (t & x & -> & Hx). destruct (one_token_exists fb rs Hiff t) as (l & tok & rest & -> & H1 & H2 & H3 & H4).
  exists l, tok, (map Ch rest ++ x). split; [rewrite !map_app, <- !app_assoc; auto|]. split; auto.
  assert (N : forall c r, map Ch (tok ++ rest) ++ x = Ch c :: r -> exists r', tok ++ rest = c :: r').
  { intros c r E. destruct (tok ++ rest) as [|d u]; [|inversion E; eauto]. destruct Hx as [->|(e & r' & ->)]; discriminate. }
  split; [|split; auto].
  - intros c r E. rewrite app_assoc, <- map_app in E. apply N in E as [r' E]. eapply H2; eauto.
  - intros c r E. destruct rest as [|d u]; [destruct Hx as [->|(e & r' & ->)]; discriminate|]. inversion E; subst. eapply H4; eauto.
Qed.

(** What is done with the token. *)
Section Parsed.
  Context {T : Type}.
  Variable parsed : str -> T -> Z * T.
  Variable means : str -> T -> Prop.
  Hypothesis parsed_means : forall s v x, means s x -> parsed s v = (0%Z, x).
  Hypothesis parsed_cases : forall s v, (exists x, means s x) \/ (exists rc, parsed s v = (rc, v) /\ rc <> 0%Z).
  Variable reserved : ascii -> Prop.
  Variable set : char_bitset.
  Hypothesis Hset : forall c, exists b, char_bitset_contains set c = Ok b /\ (b = true <-> reserved c).

  Definition extract (B : Type) (sg sb : B -> B * buf_result) (sentry : bool) (fuel : nat) (st : iostream B) (v : T) : outcome (iostream B * T * option io_exn) :=
    do ' (st, r) <- token_read B sg sb sentry fuel set st;
    match r with
    | Raise x => Ok (st, v, Some x)
    | Ret s => let '(rc, v) := parsed s v in
               if negb (Z.eqb rc 0) then do ' (st, r) <- setstate B failbit st; Ok (st, v, match r with Raise x => Some x | Ret _ => None end) else Ok (st, v, None)
    end.

  Lemma extract_any : forall B (sg sb : B -> B * buf_result) sentry fuel st v,
    match extract B sg sb sentry fuel st v with
    | Ok (st', v', x) =>
        io_mask st' = io_mask st /\ bits_kept (io_state st) (io_state st') /\
        (x <> None -> v' = v) /\
        (x = Some IosFailure -> masked (io_state st') (io_mask st')) /\
        (sentry = true ->
           (x <> None <-> masked (io_state st') (io_mask st')) /\
           (forall e, x = Some (Foreign e) -> st_bad (io_state st') = true /\ st_bad (io_mask st') = true)) /\
        (x = None -> ~ masked (io_state st) (io_mask st) -> ~ masked (io_state st') (io_mask st')) /\
        (x = None -> (exists tok, means tok v') \/ v' = v /\ st_fail (io_state st') = true)
    | OutOfFuel => True
    | _ => False
    end.
  Proof.
    intros B sg sb sentry fuel st v. unfold extract.
    assert (Hs : forall c, exists b, char_bitset_contains set c = Ok b) by (intros c; destruct (Hset c) as (b & E & _); eauto).
    pose proof (token_read_sound B sg sb set Hs sentry fuel st) as S.
    destruct (token_read _ _ _ sentry fuel set st) as [[st1 [s|x]]| | | | |] eqn:E; cbn [bind]; auto.
    - destruct S as (S1 & S2 & S3). pose proof (fun H : sentry = true => token_read_unmasked B sg sb set Hs fuel st st1 s (eq_ind sentry (fun y => token_read B sg sb y fuel set st = Ok (st1, Ret s)) E true H)) as U.
      destruct (parsed_cases s v) as [(x & Hx)|(rc & -> & Hrc)].
      + rewrite (parsed_means s v x Hx). cbn [Z.eqb negb].
        split; [auto|]. split; [auto|]. split; [congruence|]. split; [congruence|]. split; [|eauto].
        intros Hsen. split; [|congruence]. split; [congruence|]. intros M. exfalso. apply (U Hsen M).
      + apply Z.eqb_neq in Hrc. rewrite Hrc. cbn [negb]. pose proof (sound_setstate B true failbit st1) as T'. unfold setstate in *. cbn [bind io_state io_mask io_buf] in *.
        destruct (iostate_none (iostate_and _ _)) eqn:Em; destruct T' as (T1 & T2 & T3);
          (split; [auto|]; split; [eapply kept_trans; eauto|]; split; [auto|]).
        * apply unmasked_iff in Em. split; [congruence|]. split; [split; [split; intros; [congruence|contradiction]|congruence]|]. split; [auto|]. right. cbn. rewrite orb_true_r. auto.
        * split; [auto|]. split; [split; [split; intros; [auto|congruence]|congruence]|]. split; congruence.
    - destruct S as (S1 & S2 & S3). split; auto. split; auto. split; auto. destruct x as [|e].
      + split; auto. split; [intros _; split; [split; [auto|discriminate]|discriminate]|]. split; discriminate.
      + split; [discriminate|]. split; [|split; discriminate]. intros Hsen. destruct (S3 Hsen) as [Q1 Q2]. split; [split; [intros _|discriminate]|].
        * right. right. auto.
        * intros ? [= <-]. auto.
  Qed.

  (** The result for a finite buffer. *)
  Lemma extract_list : forall sentry b l tok rest fuel m v, io_token reserved b l tok rest -> length b <= fuel ->
    (sentry = true \/ tok <> [] \/ forall e r, rest <> Err e :: r) ->
    let '(b', s, x) := stop m rest in
    (forall y, x = Some y -> extract _ list_sgetc list_sbumpc sentry fuel (mk_iostream b goodbit m) v = Ok (mk_iostream b' s m, v, Some y)) /\
    (forall z, x = None -> means tok z -> extract _ list_sgetc list_sbumpc sentry fuel (mk_iostream b goodbit m) v = Ok (mk_iostream b' s m, z, None)) /\
    (x = None -> (~ exists z, means tok z) ->
       extract _ list_sgetc list_sbumpc sentry fuel (mk_iostream b goodbit m) v =
       Ok (mk_iostream b' (mk_iostate (st_eof s) true (st_bad s)) m, v, if st_fail m then Some IosFailure else None)).
  Proof.
    intros sentry b l tok rest fuel m v Ht Hf Hs. unfold extract.
    rewrite (list_token_read set reserved Hset sentry b l tok rest fuel m Ht Hf Hs). unfold stopped.
    assert (Hm : forall b' s, stop m rest = (b', s, None) -> st_fail s = false /\ ~ masked s m).
    { intros b' s E. unfold masked. destruct rest as [|[c|e] r]; cbn in E; [destruct (st_eof m) eqn:Em|..|destruct (st_bad m) eqn:Em]; inversion E; subst; cbn; intuition congruence. }
    destruct (stop m rest) as [[b' s] x]. cbn [bind].
    split; [|split].
    - intros y ->. reflexivity.
    - intros z -> Hz. rewrite (parsed_means tok v z Hz). reflexivity.
    - intros -> Hn. destruct (parsed_cases tok v) as [(z & Hz)|(rc & -> & Hrc)]; [exfalso; eauto|]. apply Z.eqb_neq in Hrc. rewrite Hrc. cbn.
      destruct (Hm b' s eq_refl) as [F M]. apply unmasked_iff in M. unfold iostate_none, iostate_and, iostate_or, failbit in *. cbn in *. rewrite F in *. rewrite !orb_false_r in *.
      destruct s as [[] [] []], m as [[] [] []]; cbn in *; try discriminate; reflexivity.
  Qed.
  Lemma extract_list_old : forall b l e rest fuel m v, io_token reserved b l [] (Err e :: rest) -> length b <= fuel ->
    extract _ list_sgetc list_sbumpc false fuel (mk_iostream b goodbit m) v = Ok (mk_iostream rest goodbit m, v, Some (Foreign e)).
  Proof. intros b l e rest fuel m v Ht Hf. unfold extract. rewrite (list_token_read_old set reserved b l e rest fuel m Ht Hf). reflexivity. Qed.
  Lemma extract_fuel : forall B (sg sb : B -> B * buf_result) sentry fuel fuel' st v y, fuel <= fuel' ->
    extract B sg sb sentry fuel st v = Ok y -> extract B sg sb sentry fuel' st v = Ok y.
  Proof.
    intros B sg sb sentry fuel fuel' st v y Hf H. unfold extract in *.
    destruct (token_read B sg sb sentry fuel set st) as [z| | | | |] eqn:E; cbn [bind] in H; try discriminate.
    rewrite (token_read_fuel B sg sb set sentry fuel fuel' st z Hf E). exact H.
  Qed.
End Parsed.

(** Enumerations. *)
Section EnumIo.
  Variables (src : enum_source Z) (vs : list Z) (ns : list str).
  Hypothesis Hal : aligned (src_values src) (src_names src) vs ns.
  Hypothesis Hok : Forall (name_ok enum_reserved) ns.
  Let Hlen : length vs = length ns.
  Proof. destruct Hal as [_ [_ H]]; auto. Qed.

  Definition enum_parsed (s : str) (v : Z) : Z * Z := match s with [] => (1%Z, v) | _ => try_enum_from_string v s (mk_enum_md (description_or_name_or_empty src) vs ns) end.
  Lemma enum_parsed_named : forall s v x, value_of_name vs ns s x -> enum_parsed s v = (0%Z, x).
  Proof.
    intros s v x H. destruct (try_enum_spec s vs ns v Hlen) as [T1 _]. assert (s <> []). { apply value_of_name_in in H. eapply name_ok_nonempty; eauto. }
    destruct s as [|c s]; [congruence|]. unfold enum_parsed, try_enum_from_string. cbn [md_values md_names]. auto.
  Qed.
  Lemma value_of_name_exists : forall s, In s ns -> exists x, value_of_name vs ns s x.
  Proof.
    intros s Hi. destruct (first_pos_exists _ (list_eq_dec ascii_dec) ns s Hi) as [k Hk].
    assert (k < length vs). { rewrite Hlen. apply nth_error_Some. destruct Hk as [Hk _]. intros N. pose proof (eq_trans (eq_sym Hk) N). discriminate. }
    destruct (nth_error vs k) as [x|] eqn:E; [|apply nth_error_None in E; lia]. exists x, k; auto.
  Qed.
  Lemma enum_parsed_cases : forall s v, (exists x, value_of_name vs ns s x) \/ (exists rc, enum_parsed s v = (rc, v) /\ rc <> 0%Z).
  Proof.
    intros s v. destruct (in_dec (list_eq_dec ascii_dec) s ns) as [Hi|Hn].
    - left. apply value_of_name_exists; auto.
    - right. destruct (try_enum_spec s vs ns v Hlen) as [_ T2]. destruct s as [|c s]; [exists 1%Z; split; [reflexivity|discriminate]|].
      exists (-1)%Z. unfold enum_parsed, try_enum_from_string. cbn [md_values md_names]. split; [auto|discriminate].
  Qed.
  Lemma io_enum_extract : exists set, (forall c, exists b, char_bitset_contains set c = Ok b /\ (b = true <-> enum_reserved c)) /\
    forall B (sg sb : B -> B * buf_result) sentry fuel st v, io_extract_enum sg sb sentry fuel src st v = extract enum_parsed set B sg sb sentry fuel st v.
  Proof.
    destruct enum_set_ok as [set [E1 E2]]. exists set. split; auto. intros.
    unfold io_extract_enum. rewrite (static_enum_metadata_ok _ _ _ _ Hal Hok). cbn [bind]. rewrite E1. reflexivity.
  Qed.
End EnumIo.

(** Flags. *)
Section FlagsIo.
  Variables (src : enum_source N) (vs : list N) (ns : list str).
  Hypothesis Hal : aligned (src_values src) (src_names src) vs ns.
  Hypothesis Hok : Forall (name_ok flags_reserved) ns.
  Hypothesis Hcov : bits_covered vs.

  Lemma io_flags_extract : exists vs' ns' set parsed, reordered vs ns vs' ns' /\
    (forall s v x, flags_text vs' ns' s x -> parsed s v = (0%Z, x)) /\
    (forall s v, (exists x, flags_text vs' ns' s x) \/ (exists rc, parsed s v = (rc, v) /\ rc <> 0%Z)) /\
    (forall c, exists b, char_bitset_contains set c = Ok b /\ (b = true <-> flags_reserved c)) /\
    forall B (sg sb : B -> B * buf_result) sentry fuel st v, io_extract_flags sg sb sentry fuel src st v = extract parsed set B sg sb sentry fuel st v.
  Proof.
    pose proof Hal as [_ [_ Hlen]].
    set (md := flags_md_of (description_or_name_or_empty src) (combine vs ns)).
    destruct flags_set_ok as [set [E1 E2]].
    exists (md_values (fmd_base md)), (md_names (fmd_base md)), set,
      (fun s v => match flags_from_string v s (fmd_base md) false with Ok p => p | _ => (1%Z, v) end).
    assert (Hr : reordered vs ns (md_values (fmd_base md)) (md_names (fmd_base md))) by (apply flags_md_of_reordered; auto).
    split; auto.
    assert (Hl' : length (md_values (fmd_base md)) = length (md_names (fmd_base md))) by (destruct Hr as [Hr1 [Hr2 _]]; congruence).
    pose proof (fun s v => flags_from_string_spec _ _ (description_or_name_or_empty src) s v false Hl') as F.
    replace (mk_enum_md (description_or_name_or_empty src) (md_values (fmd_base md)) (md_names (fmd_base md))) with (fmd_base md) in * by reflexivity.
    split; [|split; [|split; [auto|]]].
    - intros s v x Hx. apply (F s v) in Hx. rewrite Hx. auto.
    - intros s v. destruct (F s v) as [_ [F2|[t [_ Ht]]]]; [left; auto|]. right. exists (-1)%Z. rewrite Ht. split; [auto|discriminate].
    - intros B sg sb sentry fuel st v. unfold io_extract_flags. rewrite (static_flags_metadata_ok _ _ _ Hal Hok Hcov). cbn [bind]. rewrite E1. cbn [bind]. fold md.
      unfold extract. change (io_bind B _ _ st) with (token_read B sg sb sentry fuel set st).
      destruct (token_read B sg sb sentry fuel set st) as [[st' [s|x]]| | | | |]; cbn [bind]; auto.
      destruct (F s v) as [F1 [[f F2]|[t [_ Ht]]]].
      + apply F1 in F2. rewrite F2. reflexivity.
      + rewrite Ht. reflexivity.
  Qed.
End FlagsIo.
