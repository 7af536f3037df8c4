(** Property C68: apply(). *)

From Coq Require Import ZArith Arith Bool Lia List.
From Verif Require Import Base InvokeModel InvokeSpec TupleModel TupleProofs.
Import ListNotations.

Lemma all_elements : forall X (t : list X), mapM (fun i => match nth_error t i with Some v => Ok v | None => IllFormed end) (seq 0 (length t)) = Ok t.
Proof.
  intros X t. assert (G : forall l2 l1, t = l1 ++ l2 -> mapM (fun i => match nth_error t i with Some v => Ok v | None => IllFormed end) (seq (length l1) (length l2)) = Ok l2).
  { induction l2 as [|x l2 IH]; intros l1 E; [reflexivity|]. cbn [length seq mapM]. rewrite E at 1. rewrite nth_error_app2, Nat.sub_diag by lia. cbn [nth_error bind].
    specialize (IH (l1 ++ [x])). rewrite app_length in IH. cbn [length] in IH. rewrite Nat.add_1_r in IH. rewrite IH; [reflexivity|]. rewrite <- app_assoc. exact E. }
  apply (G t [] eq_refl).
Qed.

(** apply(f, t) does what INVOKE(f, t0, t1, ...) does, for the elements in order, or is rejected by the compiler if that
    has no meaning. *)
Theorem C68_apply : forall C O V S (base_of : C -> C -> bool) (class_of : O -> C) f (t : list (argument O V)) s,
  (forall res, invokes C O V S base_of class_of f t s res -> InvokeModel.apply C O V S base_of class_of f t s = res) /\
  ((~ exists res, invokes C O V S base_of class_of f t s res) -> InvokeModel.apply C O V S base_of class_of f t s = (s, IllFormed)).
Proof.
  intros C O V S base_of class_of f t s. unfold InvokeModel.apply. rewrite all_elements. split.
  - intros res H. destruct H as [f args s|c f t1 args o s D B|c f t1 o s D B]; [reflexivity| |]; cbn [invoke]; destruct D; cbn [designated]; unfold select; rewrite ?B; reflexivity.
  - intro H. destruct f as [f|c f|c f]; cbn [invoke].
    + exfalso. apply H. eexists. constructor.
    + destruct t as [|t1 t]; [reflexivity|]. destruct t1 as [o|o|o|v]; cbn [designated]; unfold select; try reflexivity;
        (destruct (base_of c (class_of o)) eqn:B; [exfalso; apply H; eexists; econstructor; [constructor|exact B]|reflexivity]).
    + destruct t as [|t1 [|]]; try reflexivity. destruct t1 as [o|o|o|v]; cbn [designated]; unfold select; try reflexivity;
        (destruct (base_of c (class_of o)) eqn:B; [exfalso; apply H; eexists; econstructor; [constructor|exact B]|reflexivity]).
Qed.
Print Assumptions C68_apply.

(** The same for the elements of any tuple and a function object (the model used by the other tuple algorithms). *)
Theorem C68_apply_function : forall V S R (func : S -> list V -> S * outcome R) t s, TupleModel.apply func t s = func s t.
Proof. intros. unfold TupleModel.apply. rewrite all_elements. reflexivity. Qed.
Print Assumptions C68_apply_function.

(** Classes 0 <- 1 (derived) and 2; objects are (class, value); a member function adds its arguments. *)
Definition ex_base (c d : nat) : bool := (c =? d) || ((c =? 0) && (d =? 1)).
Definition ex_add (s : nat) (o : nat * Z) (args : list (argument (nat * Z) Z)) : nat * outcome (argument (nat * Z) Z) :=
  (s + 1, Ok (Other (fold_left (fun a x => match x with Other v => a + v | _ => a end) args (snd o)))%Z).
Example C68_example :
  let run := InvokeModel.apply nat (nat * Z) Z nat ex_base fst in
  run (MemberFunction 0 ex_add) [Object (1, 5%Z); Other 6%Z; Other 7%Z] 0 = (1, Ok (Other 18%Z)) /\
  run (MemberFunction 0 ex_add) [Pointer (1, 5%Z)] 0 = (1, Ok (Other 5%Z)) /\
  run (MemberFunction 0 ex_add) [Wrapper (2, 5%Z)] 0 = (0, IllFormed) /\
  run (DataMember 2 (fun s o => (s, Ok (Other (snd o))))) [Wrapper (2, 5%Z)] 0 = (0, Ok (Other 5%Z)) /\
  run (DataMember 2 (fun s o => (s, Ok (Other (snd o))))) [Wrapper (2, 5%Z); Other 1%Z] 0 = (0, IllFormed) /\
  invokes nat (nat * Z) Z nat ex_base fst (MemberFunction 0 ex_add) [Object (1, 5%Z); Other 6%Z] 0 (ex_add 0 (1, 5%Z) [Other 6%Z]).
Proof. repeat split. constructor; [constructor|reflexivity]. Qed.
