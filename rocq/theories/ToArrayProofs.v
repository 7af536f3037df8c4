(** Proofs about constval_range_to_array(). *)

From Coq Require Import Arith Bool Lia List.
From Verif Require Import Base ToArrayModel ToArraySpec.
Import ListNotations.

Lemma upd_app : forall (T : Type) (a b : list T) y x, upd (a ++ y :: b) (length a) x = a ++ x :: b.
Proof. intros T a b y x. induction a as [|z a IH]; cbn; [reflexivity|]. rewrite IH. reflexivity. Qed.

Lemma copy_to_exact : forall (A T : Type) (assign : A -> outcome T) (d : T) l done n, length l <= n ->
  copy_to assign l (length done) (done ++ repeat d n) = do xs <- mapM assign l; Ok (done ++ xs ++ repeat d (n - length l)).
Proof.
  intros A T assign d. induction l as [|a l IH]; intros done n L; cbn [copy_to mapM length] in *.
  - cbn. rewrite Nat.sub_0_r. reflexivity.
  - destruct (assign a) as [x| | | | |]; try reflexivity. cbn [bind].
    unfold arr_set. rewrite app_length, repeat_length. destruct (Nat.ltb_spec (length done) (length done + n)); [|lia]. cbn [bind].
    destruct n as [|n]; [lia|]. cbn [repeat]. rewrite upd_app.
    specialize (IH (done ++ [x]) n ltac:(lia)). rewrite app_length in IH. cbn [length] in IH.
    replace (length done + 1) with (S (length done)) in IH by lia. rewrite <- app_assoc in IH. cbn [app] in IH. rewrite IH.
    destruct (mapM assign l) as [xs| | | | |]; try reflexivity. cbn [bind]. rewrite <- app_assoc. reflexivity.
Qed.
Lemma copy_to_too_long : forall (A T : Type) (assign : A -> outcome T) l i result out,
  length result < i + length l -> i <= length result -> copy_to assign l i result = Ok out -> False.
Proof.
  intros A T assign. induction l as [|a l IH]; intros i result out L M H; cbn [copy_to length] in *; [lia|].
  destruct (assign a) as [x| | | | |]; try discriminate. cbn [bind] in H. unfold arr_set in H.
  destruct (Nat.ltb_spec i (length result)); [|discriminate]. cbn [bind] in H.
  apply IH in H; [assumption| |]; rewrite upd_length; lia.
Qed.
Lemma copy_to_result : forall (A T : Type) (assign : A -> outcome T) (d : T) l n out,
  copy_to assign l 0 (repeat d n) = Ok out <->
  length l <= n /\ exists xs, mapM assign l = Ok xs /\ out = xs ++ repeat d (n - length l).
Proof.
  intros. split.
  - intros H. destruct (Nat.le_gt_cases (length l) n) as [L|L].
    + split; [assumption|]. pose proof (copy_to_exact _ _ assign d l [] n L) as E. cbn [length app] in E. rewrite E in H.
      apply bind_ok_inv in H. destruct H as [xs [H1 H2]]. injection H2 as <-. eauto.
    + exfalso. apply copy_to_too_long in H; [assumption| |]; rewrite ?repeat_length; lia.
  - intros [L [xs [H ->]]]. pose proof (copy_to_exact _ _ assign d l [] n L) as E. cbn [length app] in E. rewrite E, H. reflexivity.
Qed.

Lemma mapM_length : forall (A B : Type) (f : A -> outcome B) l bs, mapM f l = Ok bs -> length bs = length l.
Proof. intros A B f l bs H. apply mapM_inv in H. induction H; cbn; congruence. Qed.

Lemma holds_iff : forall (A T : Type) (assign : A -> outcome T) (d : T) l n out,
  (length l <= n /\ exists xs, mapM assign l = Ok xs /\ out = xs ++ repeat d (n - length l)) <->
  length l <= n /\ length out = n /\ holds assign d l out.
Proof.
  intros A T assign d l n out. split; intros [L H]; (split; [assumption|]).
  - destruct H as [xs [H ->]]. pose proof (mapM_length _ _ _ _ _ H) as Len. split.
    + rewrite app_length, repeat_length. lia.
    + split.
      * intros i a Hi. assert (Hlt : i < length l) by (apply nth_error_Some; congruence).
        rewrite nth_error_app1 by lia. apply mapM_inv in H. clear Len L Hlt. revert i Hi.
        induction H as [|y b l' bs Hy _ IH]; intros [|i] Hi; cbn in *; try discriminate.
        -- injection Hi as ->. eauto.
        -- apply IH. assumption.
      * intros i x Hi Hx. rewrite nth_error_app2 in Hx by lia. apply nth_error_In in Hx. apply repeat_spec in Hx. assumption.
  - destruct H as [Len [H1 H2]]. exists (firstn (length l) out). split.
    + apply mapM_inv. assert (L' : length l <= length out) by lia. clear H2 L Len. revert out H1 L'.
      induction l as [|a l IH]; intros out H1 L'; [constructor|].
      destruct out as [|x out]; [cbn in L'; lia|]. cbn [length firstn]. constructor.
      * destruct (H1 0 a eq_refl) as [y [Hy E]]. cbn in E. injection E as ->. assumption.
      * apply IH; [|cbn in L'; lia]. intros i b Hb. apply (H1 (S i) b Hb).
    + rewrite <- (firstn_skipn (length l) out) at 1. f_equal.
      assert (LS : length (skipn (length l) out) = n - length l) by (rewrite skipn_length; lia).
      rewrite <- LS. assert (H3 : forall x, In x (skipn (length l) out) -> x = d).
      { intros x Hx. apply In_nth_error in Hx. destruct Hx as [k Hk]. apply (H2 (length l + k)); [lia|].
        rewrite <- Hk. rewrite <- (firstn_skipn (length l) out) at 1. rewrite nth_error_app2; rewrite firstn_length; [|lia].
        f_equal. lia. }
      clear LS H1 H2. induction (skipn (length l) out) as [|y s IH]; cbn; [reflexivity|].
      rewrite (H3 y) by (left; reflexivity). f_equal. apply IH. intros x Hx. apply H3. right. assumption.
Qed.
