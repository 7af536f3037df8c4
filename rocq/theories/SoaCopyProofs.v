(** Proofs about the copying done by references of soa_span<>. *)

From Coq Require Import ZArith Arith Bool Lia Permutation List.
From Verif Require Import Base ThrowModel ThrowSpec ThrowProofs SoaCopyModel SoaCopySpec.
Import ListNotations.

Section ForEach.
  Context {S X : Type}.
  Variable op : S -> X -> S * outcome unit.

  Lemma for_each_done : forall s xs s', performed op s xs s' -> for_each op xs s = (s', Ok tt).
  Proof. intros s xs s' H. induction H as [|s x s1 xs s2 Hx _ IH]; [reflexivity|]. cbn [for_each]. rewrite Hx. exact IH. Qed.
  Lemma for_each_throws : forall s xs s1 x ys s2 e, performed op s xs s1 -> op s1 x = (s2, Throw e) -> for_each op (xs ++ x :: ys) s = (s2, Throw e).
  Proof.
    intros s xs s1 x ys s2 e H Hx. induction H as [s|s y s1 xs s3 Hy _ IH]; cbn [app for_each]; [rewrite Hx; reflexivity|].
    rewrite Hy. exact (IH Hx).
  Qed.
  Lemma for_each_cases : total op -> forall xs s,
    (exists s', performed op s xs s') \/ exists ys x zs s1 s2 e, xs = ys ++ x :: zs /\ performed op s ys s1 /\ op s1 x = (s2, Throw e).
  Proof.
    intros T xs. induction xs as [|x xs IH]; intro s; [left; exists s; constructor|].
    destruct (T s x) as [[s' [[] E]]|[s' [e E]]].
    - destruct (IH s') as [[s2 H]|[ys [y [zs [s1 [s2 [e [H1 [H2 H3]]]]]]]]].
      + left. exists s2. econstructor; eassumption.
      + right. exists (x :: ys), y, zs, s1, s2, e. subst xs. split; [reflexivity|]. split; [econstructor; eassumption|exact H3].
    - right. exists [], x, xs, s, s', e. split; [reflexivity|]. split; [constructor|exact E].
  Qed.
End ForEach.

Lemma for_each_map : forall (S X Y : Type) (g : X -> Y) (op : S -> Y -> S * outcome unit) xs s, for_each (fun s x => op s (g x)) xs s = for_each op (map g xs) s.
Proof.
  intros S X Y g op xs. induction xs as [|x xs IH]; intro s; [reflexivity|]. cbn [map for_each].
  destruct (op s (g x)) as [s' []]; try reflexivity. apply IH.
Qed.
Lemma for_each_ext : forall (S X : Type) (f g : S -> X -> S * outcome unit), (forall s x, f s x = g s x) -> forall xs s, for_each f xs s = for_each g xs s.
Proof.
  intros S X f g H xs. induction xs as [|x xs IH]; intro s; [reflexivity|]. cbn [for_each]. rewrite H.
  destruct (g s x) as [s' []]; try reflexivity. apply IH.
Qed.

Lemma paired_combine : forall (A B X : Type) (f : A -> B -> X) l1 l2 xs, length l2 = length l1 -> paired f l1 l2 xs ->
  xs = map (fun p => f (fst p) (snd p)) (combine l1 l2).
Proof.
  intros A B X f. induction l1 as [|a l1 IH]; intros [|b l2] xs Hl [H1 H2]; try discriminate; destruct xs as [|x xs]; try discriminate; [reflexivity|].
  cbn [combine map fst snd]. generalize (H2 0 a b eq_refl eq_refl). cbn [nth_error]. intro Hx. injection Hx as ->. f_equal.
  apply IH; [cbn in Hl; lia|]. split; [cbn in H1; lia|]. intros k a' b' Ha Hb. exact (H2 (Datatypes.S k) a' b' Ha Hb).
Qed.

(** The three operations that run over pairs of elements are of the same form. *)
Section Pairs.
  Context {S A B X : Type}.
  Variable g : A -> B -> X.
  Variable op : S -> X -> S * outcome unit.
  Let run (l1 : list A) (l2 : list B) (s : S) : S * outcome unit :=
    noexcept_result (for_each (fun s p => op s (g (fst p) (snd p))) (combine l1 l2) s).

  Lemma run_spec : forall l1 l2 xs s, length l2 = length l1 -> paired g l1 l2 xs ->
    (forall s', performed op s xs s' -> run l1 l2 s = (s', Ok tt)) /\
    (forall ys x zs s1 s2 e, xs = ys ++ x :: zs -> performed op s ys s1 -> op s1 x = (s2, Throw e) -> run l1 l2 s = (s2, Contract)).
  Proof.
    intros l1 l2 xs s Hl Hp. unfold run. rewrite (for_each_map _ _ _ (fun p => g (fst p) (snd p)) op).
    rewrite <- (paired_combine _ _ _ g l1 l2 xs Hl Hp). split.
    - intros s' H. rewrite (for_each_done _ _ _ _ H). reflexivity.
    - intros ys x zs s1 s2 e -> H Hx. rewrite (for_each_throws _ _ _ _ _ zs _ _ H Hx). reflexivity.
  Qed.
End Pairs.

Lemma noexcept_never : forall (S A : Type) (r : S * outcome A) e, snd (noexcept_result r) <> Throw e.
Proof. intros S A [s o] e. destruct o; discriminate. Qed.

Section ToTuple.
  Context {S P E V : Type}.
  Variable at_ : P -> Z -> E.
  Variable copy : S -> E -> S * outcome V.
  Variable move : S -> V -> S * outcome V.
  Let reads_by {X Y : Type} (f : S -> X -> S * outcome Y) (s : S) (x : X) (s' : S) (o : outcome Y) : Prop := f s x = (s', o).

  Lemma to_tuple_spec : forall order order' src index s, Permutation order (seq 0 (length src)) -> Permutation order' (seq 0 (length src)) ->
    let elems := map (fun p => at_ p index) src in
    (forall l s1 vs l' s2 ws, all_read (reads_by copy) elems s order l s1 -> values (length src) l vs ->
       all_read (reads_by move) vs s1 order' l' s2 -> values (length src) l' ws -> to_tuple at_ copy move order order' src index s = (s2, Ok ws)) /\
    (forall ps p qs l s1 x s2 e, order = ps ++ p :: qs -> all_read (reads_by copy) elems s ps l s1 -> nth_error elems p = Some x ->
       copy s1 x = (s2, Throw e) -> to_tuple at_ copy move order order' src index s = (s2, Contract)) /\
    (forall l s1 vs ps p qs l' s2 v s3 e, all_read (reads_by copy) elems s order l s1 -> values (length src) l vs -> order' = ps ++ p :: qs ->
       all_read (reads_by move) vs s1 ps l' s2 -> nth_error vs p = Some v -> move s2 v = (s3, Throw e) ->
       to_tuple at_ copy move order order' src index s = (s3, Contract)).
  Proof.
    intros order order' src index s Ho Ho' elems. assert (L : length elems = length src) by apply map_length. unfold to_tuple. fold elems.
    assert (Gc : forall s e s1 x, reads_by copy s e s1 (Ok x) -> copy s e = (s1, Ok x)) by (intros; assumption).
    assert (Gm : forall s e s1 x, reads_by move s e s1 (Ok x) -> move s e = (s1, Ok x)) by (intros; assumption).
    split; [|split].
    - intros l s1 vs l' s2 ws Hc Hv Hm Hw. generalize (proj1 Hv). intro Lv.
      rewrite (gets_ok _ _ Gc elems order s l s1 vs); [|rewrite L; exact Ho|exact Hc|rewrite L; exact Hv].
      rewrite (gets_ok _ _ Gm vs order' s1 l' s2 ws); [reflexivity|rewrite Lv; exact Ho'|exact Hm|rewrite Lv; exact Hw].
    - intros ps p qs l s1 x s2 e -> Ha Hp Hx.
      assert (Hn : NoDup (ps ++ p :: qs)) by (apply (Permutation_NoDup (Permutation_sym Ho)); apply seq_NoDup).
      rewrite (gets_fails _ _ Gc elems ps p qs s l s1 x s2 (Throw e) Hn Ha Hp Hx ltac:(discriminate) (Throw e) eq_refl). reflexivity.
    - intros l s1 vs ps p qs l' s2 v s3 e Hc Hv -> Hm Hp Hx. generalize (proj1 Hv). intro Lv.
      rewrite (gets_ok _ _ Gc elems order s l s1 vs); [|rewrite L; exact Ho|exact Hc|rewrite L; exact Hv].
      assert (Hn : NoDup (ps ++ p :: qs)) by (apply (Permutation_NoDup (Permutation_sym Ho')); apply seq_NoDup).
      rewrite (gets_fails _ _ Gm vs ps p qs s1 l' s2 v s3 (Throw e) Hn Hm Hp Hx ltac:(discriminate) (Throw e) eq_refl). reflexivity.
  Qed.
End ToTuple.
