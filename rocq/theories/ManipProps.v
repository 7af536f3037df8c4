(** Property C66: manipulators made from functors. *)

From Coq Require Import Arith Bool Lia List.
From Verif Require Import Base ManipModel ManipSpec.
Import ListNotations.

Section Proofs.
  Variables (F V St : Type).
  Lemma tuple_of_spec : forall (args : list (arg V)) os n, n <= length os ->
    exists tail l, tuple_of V os args = (os ++ tail, l) /\
      Forall2 (gets V n (os ++ tail)) args l /\ apart V args l /\
      (forall k v i, nth_error args k = Some (RValue v) -> nth_error l k = Some i -> length os <= i).
  Proof.
    induction args as [|[j|v] args IH]; intros os n Hn.
    - exists [], []. rewrite app_nil_r. split; [reflexivity|]. split; [constructor|]. split.
      + intros j k v w i H. destruct j; discriminate.
      + intros k v i H. destruct k; discriminate.
    - destruct (IH os n Hn) as (tail & l & E & G & A & M). exists tail, (j :: l). cbn [tuple_of]. rewrite E. split; [reflexivity|]. split; [|split].
      + constructor; [reflexivity|exact G].
      + intros [|j'] [|k'] v w i H1 H2 H3 H4; cbn in H1, H2; try discriminate. f_equal. eapply A; eauto.
      + intros [|k] v i H1 H2; cbn in H1, H2; [discriminate|]. eapply M; eauto.
    - destruct (IH (os ++ [v]) n) as (tail & l & E & G & A & M); [rewrite app_length; cbn; lia|].
      exists (v :: tail), (length os :: l). cbn [tuple_of]. rewrite E. rewrite <- app_assoc in *. cbn [app] in *. rewrite app_length in M. cbn [length] in M.
      split; [reflexivity|]. split; [|split].
      + constructor; [|exact G]. split; [exact Hn|]. rewrite nth_error_app2, Nat.sub_diag by lia. reflexivity.
      + intros [|j'] [|k'] x y i H1 H2 H3 H4; cbn in H1, H2, H3, H4; try reflexivity.
        * injection H3 as <-. specialize (M _ _ _ H2 H4). lia.
        * injection H4 as <-. specialize (M _ _ _ H1 H3). lia.
        * f_equal. eapply A; eauto.
      + intros [|k] x i H1 H2; cbn in H1, H2; [injection H2 as <-; lia|]. specialize (M _ _ _ H1 H2). lia.
  Qed.
  Lemma gets_lvalue_or_new : forall n os (args : list (arg V)) l, Forall2 (gets V n os) args l -> forall i, In i l -> In (LValue i) args \/ n <= i.
  Proof. induction 1 as [|a j args l G F2 IH]; intros i [<-|I] || intros i []; [destruct a as [k|v]; [left; left; f_equal; symmetry; exact G|right; apply G]|destruct (IH i I); [left; right; assumption|right; assumption]]. Qed.
End Proofs.

(** C66, full statement: for manipulators that exist, the theorem below, and using what as_enum() and as_flags() return is
    always defined.  The latter is false (C66_as_enum_refuted).

    The functor of a manipulator that exists is called once, with what it captured, the stream, and its arguments in
    order; its result is the result.  Nothing but the lvalues that were passed (and the functor's other effects) is
    changed. *)
Theorem C66_arguments_forwarded_partial : forall (F V St : Type) (f : functor F V St) ms a c args os s,
  nth_error ms a = Some (Some c) ->
  exists tail l, Forall2 (gets V (length os) (os ++ tail)) args l /\ apart V args l /\
    use F V St f ms a args os s =
    match f c l (os ++ tail) s with
    | Ok (os', s') => Ok (firstn (length os) os', s')
    | Contract => Contract | Throw e => Throw e | UB => UB | IllFormed => IllFormed | OutOfFuel => OutOfFuel
    end.
Proof.
  intros F V St f ms a c args os s H. destruct (tuple_of_spec V args os (length os) (le_n _)) as (tail & l & E & G & A & _).
  exists tail, l. split; [exact G|]. split; [exact A|]. unfold use, use_with, call. rewrite E. unfold stream_with. cbn [b_manip b_args]. rewrite H.
  destruct (f c l (os ++ tail) s) as [[os' s']| | | | |]; reflexivity.
Qed.
Print Assumptions C66_arguments_forwarded_partial.

(** Insertion calls the first functor; extraction calls the second, and does not compile if there is none. *)
Theorem C66_direction : forall (F V St : Type) (fs : functors F V St) ms a args os s,
  insert F V St fs ms a args os s = use F V St (put F V St fs) ms a args os s /\
  (forall f, get F V St fs = Some f -> extract F V St fs ms a args os s = use F V St f ms a args os s) /\
  (get F V St fs = None -> extract F V St fs ms a args os s = IllFormed).
Proof.
  intros F V St fs ms a args os s. split; [reflexivity|]. unfold extract, use, use_with, op_extract. split.
  - intros f ->. reflexivity.
  - intros ->. unfold call. destruct (tuple_of V os args). reflexivity.
Qed.
Print Assumptions C66_direction.

(** The same for a manipulator made in the expression that uses it. *)
Theorem C66_temporary_partial : forall (F V St : Type) (f : functor F V St) ms c args os s,
  use_temporary F V St f ms c args os s = use F V St f [Some c] 0 args os s.
Proof.
  intros. unfold use_temporary, make_manipulator, use, use_with, call. destruct (tuple_of V os args) as [os' l].
  unfold stream_with. cbn [b_manip b_args]. rewrite nth_error_app2, Nat.sub_diag by lia. reflexivity.
Qed.
Print Assumptions C66_temporary_partial.

Theorem C66_only_lvalues_change_partial : forall (F V St : Type) (f : functor F V St) ms a args os s os' s',
  changes_only_given V f -> use F V St f ms a args os s = Ok (os', s') ->
  length os' = length os /\ forall i, ~ In (LValue i) args -> nth_error os' i = nth_error os i.
Proof.
  intros F V St f ms a args os s os' s' Hf H. destruct (tuple_of_spec V args os (length os) (le_n _)) as (tail & l & E & G & A & _).
  unfold use, use_with, call in H. rewrite E in H. unfold stream_with in H. cbn [b_manip b_args] in H.
  destruct (nth_error ms a) as [[c|]|]; try discriminate. apply bind_ok_inv in H as ([os1 s1] & H1 & H2). injection H2 as <- <-.
  destruct (Hf _ _ _ _ _ _ H1) as [L K]. rewrite app_length in L. rewrite firstn_length. split; [lia|].
  intros i Hi. destruct (Nat.lt_ge_cases i (length os)) as [Lt|Ge].
  - assert (X : nth_error (firstn (length os) os1) i = nth_error os1 i).
    { rewrite <- (firstn_skipn (length os) os1) at 2. rewrite nth_error_app1; [reflexivity|]. rewrite firstn_length. lia. }
    rewrite X, K; [apply nth_error_app1; exact Lt|]. intro I. destruct (gets_lvalue_or_new V _ _ _ _ G i I); [contradiction|lia].
  - rewrite (proj2 (nth_error_None _ _)) by (rewrite firstn_length; lia). symmetry. apply nth_error_None. exact Ge.
Qed.
Print Assumptions C66_only_lvalues_change_partial.

(** A manipulator is usable exactly as long as it exists: what it returned cannot be used afterwards. *)
Theorem C66_destroyed_partial : forall (F V St : Type) (f : functor F V St) ms a l os s,
  nth_error (destroy F ms a) a <> None -> stream_with F V St f (destroy F ms a) (mk_bound a l) os s = UB.
Proof.
  intros F V St f ms a l os s H. unfold stream_with. cbn [b_manip]. unfold destroy in *.
  destruct (Nat.lt_ge_cases a (length ms)) as [L|G]; [rewrite nth_error_upd_same by exact L; reflexivity|].
  exfalso. apply H, nth_error_None. rewrite upd_length. exact G.
Qed.
Print Assumptions C66_destroyed_partial.

(** What as_enum(value) and as_flags(value) return refers to a manipulator that has been destroyed, whatever the value. *)
Theorem C66_as_enum_undefined : forall (F V St : Type) (f : functor F V St) ms c value os s,
  let '(ms', os', b) := as_manipulator F V ms c value os in stream_with F V St f ms' b os' s = UB.
Proof.
  intros. unfold as_manipulator, make_manipulator, call. destruct (tuple_of V os [value]) as [os' l].
  apply C66_destroyed_partial. unfold destroy. rewrite nth_error_upd_same; [discriminate|]. rewrite app_length. cbn. lia.
Qed.
Print Assumptions C66_as_enum_undefined.

(** The fault is confined to the manipulator: the argument is bound to the given object, or to a new one with the given value,
    and no other object or manipulator changes. *)
Theorem C66_as_enum_argument : forall (F V : Type) ms (c : F) (value : arg V) os ms' os' b, as_manipulator F V ms c value os = (ms', os', b) ->
  (forall i, i < length ms -> nth_error ms' i = nth_error ms i) /\ (forall i, i < length os -> nth_error os' i = nth_error os i) /\
  match value with
  | LValue i => b_args b = [i] /\ os' = os
  | RValue v => exists i, b_args b = [i] /\ length os <= i /\ nth_error os' i = Some v
  end.
Proof.
  intros F V ms c value os ms' os' b H. unfold as_manipulator, make_manipulator, call in H.
  assert (Hms : forall i, i < length ms -> nth_error (destroy F (ms ++ [Some c]) (length ms)) i = nth_error ms i).
  { intros i Hi. unfold destroy. rewrite nth_error_upd_other by lia. apply nth_error_app1. auto. }
  destruct value as [i|v]; cbn in H; injection H as <- <- <-; cbn [b_args].
  - auto.
  - split; auto. split; [intros i Hi; apply nth_error_app1; auto|]. exists (length os). split; auto. split; [lia|]. rewrite nth_error_app2, Nat.sub_diag by lia. reflexivity.
Qed.
Print Assumptions C66_as_enum_argument.

(** A functor that reads a value from the stream (a list) into its first argument, with a limit captured. *)
Definition ex_get : functor nat nat (list nat) :=
  fun c l os s => match l, s with
                  | [i; j], x :: r => do lim <- arr_get os j; Ok (if x <? c + lim then upd os i x else os, r)
                  | _, _ => Ok (os, s)
                  end.
(** A functor that appends its first argument, plus what it captured, to the stream. *)
Definition ex_put : functor nat nat (list nat) :=
  fun c l os s => match l with i :: _ => do x <- arr_get os i; Ok (os, s ++ [x + c]) | [] => Ok (os, s) end.
Theorem C66_as_enum_refuted : exists (f : functor nat nat (list nat)) ms c value os s ms' os' b,
  changes_only_given nat f /\ as_manipulator nat nat ms c value os = (ms', os', b) /\ stream_with nat nat (list nat) f ms' b os' s = UB.
Proof.
  exists (fun _ _ os s => Ok (os, s)), [], 3, (RValue 5), [10; 11], [7]. do 3 eexists. split; [|split; reflexivity].
  intros c l os s os' s' H. injection H as <- <-. auto.
Qed.
Print Assumptions C66_as_enum_refuted.
Example C66_example :
  use nat nat (list nat) ex_get [None; Some 3] 1 [LValue 1; RValue 5] [10; 11; 12] [7; 8] = Ok ([10; 7; 12], [8]) /\
  use nat nat (list nat) ex_get [None; Some 1] 1 [LValue 1; RValue 5] [10; 11; 12] [7; 8] = Ok ([10; 11; 12], [8]) /\
  use nat nat (list nat) ex_get [None; Some 3] 1 [RValue 1; LValue 0] [10; 11; 12] [7; 8] = Ok ([10; 11; 12], [8]) /\
  insert nat nat (list nat) (mk_functors _ _ _ ex_put (Some ex_get)) [None; Some 3] 1 [LValue 1] [10; 11; 12] [7; 8] = Ok ([10; 11; 12], [7; 8; 14]) /\
  extract nat nat (list nat) (mk_functors _ _ _ ex_put (Some ex_get)) [None; Some 3] 1 [LValue 1; RValue 5] [10; 11; 12] [7; 8] = Ok ([10; 7; 12], [8]) /\
  extract nat nat (list nat) (mk_functors _ _ _ ex_put None) [None; Some 3] 1 [LValue 1; RValue 5] [10; 11; 12] [7; 8] = IllFormed /\
  use nat nat (list nat) ex_get [None; Some 3] 0 [RValue 1; LValue 0] [10; 11; 12] [7; 8] = UB /\
  changes_only_given nat ex_get.
Proof.
  repeat split; try reflexivity; unfold ex_get in *; destruct l as [|i0 [|j [|]]]; try (injection H as <- <-; reflexivity);
    destruct s as [|x r]; try (injection H as <- <-; reflexivity); apply bind_ok_inv in H as (lim & _ & H); injection H as <- <-; destruct (x <? c + lim); try reflexivity; try apply upd_length.
  intros. apply nth_error_upd_other. intros ->. apply H. left; reflexivity.
Qed.
