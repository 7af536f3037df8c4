(** Proofs about functors passed to algorithms. *)

From Coq Require Import ZArith Arith Bool Lia List.
From Verif Require Import Base ForwardModel TupleModel ZipModel FunctorModel FunctorSpec.
Import ListNotations.

(** * Overload resolution *)
Section Class.
  Context {St A R : Type}.
  Local Notation operator := (operator St A R).

  Lemma same_qualifiers_eq : forall o o' : operator, same_qualifiers o o' = true <-> qualifiers o = qualifiers o'.
  Proof.
    intros [c r b] [c' r' b']. unfold same_qualifiers, qualifiers. cbn [q_const q_ref].
    destruct c, c', r, r'; cbn; split; congruence.
  Qed.
  Lemma unique_qualifiers : forall (l : list operator) o o', NoDup (map qualifiers l) -> In o l -> In o' l -> qualifiers o = qualifiers o' -> o = o'.
  Proof.
    induction l as [|a l IH]; intros o o' D I I' E; [destruct I|]. cbn in D. inversion D as [|? ? N D']; subst.
    destruct I as [<-|I], I' as [<-|I']; auto.
    - exfalso. apply N. rewrite E. now apply in_map.
    - exfalso. apply N. rewrite <- E. now apply in_map.
  Qed.
  Lemma filter_single : forall (p : operator -> bool) l o, NoDup (map qualifiers l) -> In o l -> p o = true ->
    (forall o', In o' l -> p o' = true -> o' = o) -> filter p l = [o].
  Proof.
    intros p. induction l as [|a l IH]; intros o D I P U; [destruct I|]. cbn in D. inversion D as [|? ? N D']; subst. cbn [filter].
    destruct I as [->|I].
    - rewrite P. f_equal. assert (F : forall x, In x l -> p x = false).
      { intros x Ix. destruct (p x) eqn:Px; [|reflexivity]. exfalso. apply N. rewrite <- (U x (or_intror Ix) Px). now apply in_map. }
      clear -F. induction l as [|x l IH]; [reflexivity|]. cbn. rewrite (F x (or_introl eq_refl)). apply IH. intros y Iy. apply F. now right.
    - destruct (p a) eqn:Pa.
      + exfalso. apply N. rewrite (U a (or_introl eq_refl) Pa). now apply in_map.
      + apply IH; auto. intros o' I' P'. apply U; auto. now right.
  Qed.

  Definition q_viable (c : cat) (q : bool * refq) : bool :=
    (fst q || negb (is_const c)) && match snd q with NoRef => true | Amp => negb (is_rvalue c) || fst q | AmpAmp => is_rvalue c end.
  Lemma viable_preference : forall c (o : operator), viable c o = true <-> In (qualifiers o) (preference c).
  Proof.
    intros c [k r b]. unfold viable, qualifiers. cbn [q_const q_ref].
    destruct c, k, r; cbn; split; intro H; try discriminate; try (intuition congruence).
  Qed.

  Ltac pick l := exists l; eexists; split; [reflexivity|].
  Ltac peel :=
    match goal with
    | E : [] = ?be ++ _ :: _ |- _ => destruct be; discriminate E
    | E : _ :: _ = ?be ++ _ :: _ |- _ =>
        destruct be; [solve [cbn [app] in E; inversion E; subst; cbn [In] in *; intuition congruence] | apply (f_equal (@tl _)) in E; cbn [tl app] in E; peel]
    end.
  Lemma resolve_chosen : forall (k : class St A R) c o, declarable (c_ops k) -> (resolve c (c_ops k) = Some o <-> chosen k c o).
  Proof.
    intros k c o [D M]. unfold resolve, chosen. set (l := c_ops k) in *. split.
    - intros H. destruct (filter _ l) as [|x [|y r]] eqn:F; try discriminate. injection H as ->.
      assert (I : In o (filter (fun o => viable c o && forallb (fun o' => same_qualifiers o o' || negb (viable c o') || better c o o') l) l)) by (rewrite F; now left).
      apply filter_In in I. destruct I as [I P]. apply andb_true_iff in P. destruct P as [Vo P]. rewrite forallb_forall in P. split; [exact I|].
      pose proof (proj1 (viable_preference c o) Vo) as Pr. apply in_split in Pr. 
      assert (G : forall o', In o' l -> viable c o' = true -> qualifiers o = qualifiers o' \/ better c o o' = true).
      { intros o' I' V'. specialize (P o' I'). rewrite V' in P. cbn in P. rewrite orb_false_r in P. apply orb_true_iff in P.
        destruct P as [P|P]; [left; now apply same_qualifiers_eq | now right]. }
      assert (Z : exists before after, preference c = before ++ qualifiers o :: after /\ forall q, In q before ->
                    q <> qualifiers o /\ forall o', qualifiers o' = q -> better c o o' = false \/ (q_ref o = NoRef /\ q_ref o' <> NoRef) \/ (q_ref o <> NoRef /\ q_ref o' = NoRef)).
      { clear -Vo. destruct o as [ko ro bo]. unfold viable, qualifiers in *. cbn [q_const q_ref] in *.
        destruct c, ko, ro; cbn in Vo; try discriminate; cbn [preference];
          (first [ pick (@nil (bool * refq)) | pick [(false, NoRef)] | pick [(true, NoRef)] | pick [(false, NoRef); (false, Amp)] | pick [(false, NoRef); (false, Amp); (true, NoRef)]
                 | pick [(false, NoRef); (false, AmpAmp)] | pick [(false, NoRef); (false, AmpAmp); (true, NoRef)] | pick [(false, NoRef); (false, AmpAmp); (true, NoRef); (true, AmpAmp)]
                 | pick [(true, NoRef); (true, AmpAmp)] ];
           intros q Iq; split; [intro E; subst q; cbn in Iq; intuition congruence|];
           intros [k' r' b'] E; cbn [q_const q_ref] in *; subst q; cbn in Iq;
           repeat (destruct Iq as [Iq|Iq]; [injection Iq as <- <-; cbn; solve [auto | right; left; split; congruence | right; right; split; congruence]|]); destruct Iq). }
      destruct Z as (be & af & Ez & Z). exists be, af. split; [exact Ez|]. intros o' I' N.
      destruct (Z _ N) as [Ne Z']. specialize (Z' o' eq_refl).
      assert (V' : viable c o' = true). { apply viable_preference. rewrite Ez. apply in_or_app. now left. }
      destruct (G o' I' V') as [E|E]; [congruence|]. destruct Z' as [Z'|[[Z1 Z2]|[Z1 Z2]]]; [congruence| |].
      + destruct M as [M|M]; [apply Z2, M, I' | apply (M o I Z1)].
      + destruct M as [M|M]; [apply Z1, M, I | apply (M o' I' Z2)].
    - intros (I & be & af & E & N).
      assert (Vo : viable c o = true). { apply viable_preference. rewrite E. apply in_or_app. right. now left. }
      assert (B : forall o', In o' l -> viable c o' = true -> qualifiers o' <> qualifiers o -> better c o o' = true /\ better c o' o = false).
      { intros o' I' V' Ne. pose proof (proj1 (viable_preference c o') V') as Pr. rewrite E in Pr. apply in_app_or in Pr.
        destruct Pr as [Pr|[Pr|Pr]]; [destruct (N o' I' Pr) | congruence |].
        assert (Mx : (q_ref o = NoRef /\ q_ref o' = NoRef) \/ (q_ref o <> NoRef /\ q_ref o' <> NoRef)).
        { destruct M as [M|M]; [left|right]; split; apply M; assumption. }
        clear -E Pr Mx Vo V' Ne. destruct o as [k1 r1 b1], o' as [k2 r2 b2]. unfold qualifiers, viable in *. cbn [q_const q_ref] in *.
        destruct c, k1, r1; cbn in Vo; try discriminate; destruct k2, r2; cbn in V'; try discriminate; try congruence; cbn [better q_const q_ref negb andb];
          try (split; reflexivity); try (exfalso; intuition congruence);
          exfalso; cbn [preference] in E; peel. }
      rewrite (filter_single _ l o D I); [reflexivity| |].
      + rewrite Vo. cbn. apply forallb_forall. intros o' I'. destruct (same_qualifiers o o') eqn:Q; [reflexivity|].
        destruct (viable c o') eqn:V'; [|reflexivity]. cbn. apply (B o' I' V'). intro X. symmetry in X. apply same_qualifiers_eq in X. congruence.
      + intros o' I' P. apply andb_true_iff in P. destruct P as [V' P]. rewrite forallb_forall in P. specialize (P o I). rewrite Vo in P. cbn in P. rewrite orb_false_r in P.
        apply orb_true_iff in P. destruct P as [P|P].
        * apply (unique_qualifiers l); auto. now apply same_qualifiers_eq.
        * destruct (same_qualifiers o' o) eqn:Q; [apply (unique_qualifiers l); auto; now apply same_qualifiers_eq|].
          destruct (B o' I' V') as [_ X]; [|congruence]. intro X. apply same_qualifiers_eq in X. congruence.
  Qed.
End Class.

(** * Runs on related states *)
Definition sim {S1 S2 X : Type} (Rel : S1 -> S2 -> Prop) (r1 : S1 * outcome X) (r2 : S2 * outcome X) : Prop :=
  Rel (fst r1) (fst r2) /\ snd r1 = snd r2.
Definition simf {S1 S2 A X : Type} (Rel : S1 -> S2 -> Prop) (f1 : S1 -> A -> S1 * outcome X) (f2 : S2 -> A -> S2 * outcome X) : Prop :=
  forall s1 s2 a, Rel s1 s2 -> sim Rel (f1 s1 a) (f2 s2 a).

Ltac simstep H :=
  let s1 := fresh "s" in let o1 := fresh "o" in let s2 := fresh "s" in let o2 := fresh "o" in
  let HR := fresh "HR" in let HE := fresh "HE" in
  destruct H as [HR HE];
  match type of HR with _ (fst ?x) (fst ?y) => destruct x as [s1 o1]; destruct y as [s2 o2] end;
  cbn [fst snd] in HR, HE; subst o1.

Section TupleSim.
  Context {V S1 S2 R : Type} (Rel : S1 -> S2 -> Prop) (f1 : S1 -> list (element V) -> S1 * outcome R) (f2 : S2 -> list (element V) -> S2 * outcome R).
  Hypothesis F : simf Rel f1 f2.

  Lemma transform_element_sim : forall i args s1 s2, Rel s1 s2 -> sim Rel (transform_element i f1 args s1) (transform_element i f2 args s2).
  Proof. intros i args s1 s2 H. unfold transform_element. destruct (get_elements i args); try (split; [exact H|reflexivity]). apply F. exact H. Qed.
  Lemma swallow_sim : forall l args s1 s2, Rel s1 s2 -> sim Rel (swallow l f1 args s1) (swallow l f2 args s2).
  Proof.
    induction l as [|i l IH]; intros args s1 s2 H; cbn [swallow]; [split; [exact H|reflexivity]|].
    pose proof (transform_element_sim i args s1 s2 H) as E. simstep E. destruct o0; cbn [bind]; try (split; [exact HR|reflexivity]). apply IH. exact HR.
  Qed.
  Lemma template_for_sim : forall N args s1 s2, Rel s1 s2 -> sim Rel (TupleModel.template_for N f1 args s1) (TupleModel.template_for N f2 args s2).
  Proof.
    intros N args s1 s2 H. unfold TupleModel.template_for. destruct (tuple_transform_size N args) as [n| | | | |]; try (split; [exact H|reflexivity]).
    destruct (well_formed_for (seq 0 n) args); try (split; [exact H|reflexivity]). apply swallow_sim. exact H.
  Qed.
  Lemma init_list_sim : forall l args s1 s2, Rel s1 s2 -> sim Rel (init_list l f1 args s1) (init_list l f2 args s2).
  Proof.
    induction l as [|i l IH]; intros args s1 s2 H; cbn [init_list]; [split; [exact H|reflexivity]|].
    pose proof (transform_element_sim i args s1 s2 H) as E. simstep E. destruct o0 as [x| | | | |]; cbn [bind]; try (split; [exact HR|reflexivity]).
    pose proof (IH args _ _ HR) as E. simstep E. split; [exact HR0|reflexivity].
  Qed.
  Lemma array_transform_sim : forall N args s1 s2, Rel s1 s2 -> sim Rel (TupleModel.array_transform N f1 args s1) (TupleModel.array_transform N f2 args s2).
  Proof.
    intros N args s1 s2 H. unfold TupleModel.array_transform. destruct (tuple_transform_size N args) as [n| | | | |]; try (split; [exact H|reflexivity]).
    destruct (well_formed_for (seq 0 n) args); try (split; [exact H|reflexivity]). apply init_list_sim. exact H.
  Qed.
  Lemma evaluate_in_sim : forall l args s1 s2 v, Rel s1 s2 -> sim Rel (evaluate_in l f1 args s1 v) (evaluate_in l f2 args s2 v).
  Proof.
    induction l as [|i l IH]; intros args s1 s2 v H; cbn [evaluate_in]; [split; [exact H|reflexivity]|].
    pose proof (transform_element_sim i args s1 s2 H) as E. simstep E. destruct o0; cbn [bind]; try (split; [exact HR|reflexivity]). apply IH. exact HR.
  Qed.
  Lemma tuple_transform_sim : forall order N args s1 s2, Rel s1 s2 ->
    sim Rel (TupleModel.tuple_transform order N f1 args s1) (TupleModel.tuple_transform order N f2 args s2).
  Proof.
    intros order N args s1 s2 H. unfold TupleModel.tuple_transform. destruct (tuple_transform_size N args) as [n| | | | |]; try (split; [exact H|reflexivity]).
    destruct (well_formed_for (seq 0 n) args); try (split; [exact H|reflexivity]).
    pose proof (evaluate_in_sim order args s1 s2 (fun _ => None) H) as E. simstep E. split; [exact HR|reflexivity].
  Qed.
End TupleSim.

Section ReduceSim.
  Context {V S1 S2 A B : Type} (Rel : S1 -> S2 -> Prop).
  Lemma reduce_sim : forall (r1 : S1 -> A -> B -> S1 * outcome A) (r2 : S2 -> A -> B -> S2 * outcome A)
    (t1 : S1 -> list (element V) -> S1 * outcome B) t2 args init s1 s2,
    (forall s1 s2 a b, Rel s1 s2 -> sim Rel (r1 s1 a b) (r2 s2 a b)) -> simf Rel t1 t2 -> Rel s1 s2 ->
    sim Rel (TupleModel.template_transform_reduce init r1 t1 args s1) (TupleModel.template_transform_reduce init r2 t2 args s2).
  Proof.
    intros r1 r2 t1 t2 args init s1 s2 FR FT H. unfold TupleModel.template_transform_reduce.
    destruct (tuple_transform_size (-1) args) as [n| | | | |]; try (split; [exact H|reflexivity]).
    destruct (well_formed_for (seq 0 n) args); try (split; [exact H|reflexivity]).
    generalize n at 2 4 as N. generalize 0 as I. revert init s1 s2 H. induction n as [|k IH]; intros init s1 s2 H I N; cbn [transform_reduce_fn]; [split; [exact H|reflexivity]|].
    pose proof (transform_element_sim Rel t1 t2 FT I args s1 s2 H) as E. simstep E. destruct o0 as [b| | | | |]; cbn [bind]; try (split; [exact HR|reflexivity]).
    pose proof (FR _ _ init b HR) as E. simstep E. destruct o0; try (split; [exact HR0|reflexivity]). apply IH. exact HR0.
  Qed.
  Lemma conjunction_sim : forall neg (p1 : S1 -> list (element V) -> S1 * outcome bool) p2 args s1 s2, simf Rel p1 p2 -> Rel s1 s2 ->
    sim Rel (conjunction neg p1 args s1) (conjunction neg p2 args s2).
  Proof.
    intros neg p1 p2 args s1 s2 F H. unfold conjunction.
    destruct (tuple_transform_size (-1) args) as [n| | | | |]; try (split; [exact H|reflexivity]).
    destruct (well_formed_for (seq 0 n) args); try (split; [exact H|reflexivity]).
    generalize 0 as I. revert s1 s2 H. induction n as [|k IH]; intros s1 s2 H I; cbn [conjunction_fn]; [split; [exact H|reflexivity]|].
    pose proof (transform_element_sim Rel p1 p2 F I args s1 s2 H) as E. simstep E. destruct o0 as [b| | | | |]; try (split; [exact HR|reflexivity]).
    destruct (negb (if neg then negb b else b)); [split; [exact HR|reflexivity] | apply IH; exact HR].
  Qed.
End ReduceSim.

Lemma algorithm_sim : forall (S1 S2 X : Type) (Rel : S1 -> S2 -> Prop) (b1 : S1 -> list ref -> S1 * outcome (option X)) b2 rs s1 s2,
  simf Rel b1 b2 -> Rel s1 s2 -> sim Rel (algorithm b1 rs s1) (algorithm b2 rs s2).
Proof.
  intros S1 S2 X Rel b1 b2 rs s1 s2 F H. unfold algorithm. destruct (algorithm_size rs) as [N| | | | |]; try (split; [exact H|reflexivity]).
  generalize (zip_begin rs) as it. revert s1 s2 H. induction (loop_fuel rs) as [|n IH]; intros s1 s2 H it; cbn [zip_loop]; [split; [exact H|reflexivity]|].
  destruct (sentinel_is_end N it) as [[|]| | | | |]; try (split; [exact H|reflexivity]).
  destruct (zip_deref it) as [refs| | | | |]; try (split; [exact H|reflexivity]).
  pose proof (F s1 s2 refs H) as E. simstep E. destruct o0 as [[x|]| | | | |]; try (split; [exact HR|reflexivity]).
  destruct (zip_inc it); try (split; [exact HR|reflexivity]). apply IH. exact HR.
Qed.

Section RangeSim.
  Context {S1 S2 : Type} (Rel : S1 -> S2 -> Prop).
  Lemma range_for_sim : forall (f1 : S1 -> list ref -> S1 * outcome unit) f2 rs s1 s2, simf Rel f1 f2 -> Rel s1 s2 ->
    sim Rel (ZipModel.range_for f1 rs s1) (ZipModel.range_for f2 rs s2).
  Proof.
    intros f1 f2 rs s1 s2 F H. unfold ZipModel.range_for.
    match goal with |- sim _ (let '(_, _) := algorithm ?b1 _ _ in _) (let '(_, _) := algorithm ?b2 _ _ in _) => pose proof (algorithm_sim _ _ _ Rel b1 b2 rs s1 s2) as E end.
    destruct E as [HR HE]; [|exact H|].
    { intros a b args Hab. pose proof (F a b args Hab) as E. simstep E. split; [exact HR|reflexivity]. }
    match type of HR with Rel (fst ?x) (fst ?y) => destruct x, y end. cbn [fst snd] in *. subst. split; [exact HR|reflexivity].
  Qed.
  Lemma early_sim : forall (f1 : S1 -> list ref -> S1 * outcome bool) f2 (g : bool -> outcome (option bool)) (h : option bool -> outcome bool) rs s1 s2, simf Rel f1 f2 -> Rel s1 s2 ->
    sim Rel (let '(s', o) := algorithm (fun s args => let '(s', o) := f1 s args in (s', do b <- o; g b)) rs s1 in (s', do r <- o; h r))
            (let '(s', o) := algorithm (fun s args => let '(s', o) := f2 s args in (s', do b <- o; g b)) rs s2 in (s', do r <- o; h r)).
  Proof.
    intros f1 f2 g h rs s1 s2 F H.
    match goal with |- sim _ (let '(_, _) := algorithm ?b1 _ _ in _) (let '(_, _) := algorithm ?b2 _ _ in _) => pose proof (algorithm_sim _ _ _ Rel b1 b2 rs s1 s2) as E end.
    destruct E as [HR HE]; [|exact H|].
    { intros a b args Hab. pose proof (F a b args Hab) as E. simstep E. split; [exact HR|reflexivity]. }
    match type of HR with Rel (fst ?x) (fst ?y) => destruct x, y end. cbn [fst snd] in *. subst. split; [exact HR|reflexivity].
  Qed.
  Definition with_result {X : Type} (p : S1 * X) (q : S2 * X) : Prop := Rel (fst p) (fst q) /\ snd p = snd q.
  Lemma range_count_if_sim : forall (f1 : S1 -> list ref -> S1 * outcome bool) f2 rs s1 s2, simf Rel f1 f2 -> Rel s1 s2 ->
    sim Rel (ZipModel.range_count_if f1 rs s1) (ZipModel.range_count_if f2 rs s2).
  Proof.
    intros f1 f2 rs s1 s2 F H. unfold ZipModel.range_count_if.
    match goal with |- sim _ (let '(_, _) := algorithm ?b1 _ ?t1 in _) (let '(_, _) := algorithm ?b2 _ ?t2 in _) => pose proof (algorithm_sim _ _ _ with_result b1 b2 rs t1 t2) as E end.
    destruct E as [HR HE]; [|split; [exact H|reflexivity]|].
    { intros [a x] [b y] args [Hab Hxy]. cbn [fst snd] in *. subst y. pose proof (F a b args Hab) as E. simstep E. destruct o0; (split; [split; [exact HR|reflexivity]|reflexivity]). }
    match type of HR with with_result (fst ?x) (fst ?y) => destruct x as [[? ?] ?], y as [[? ?] ?] end. destruct HR as [HR HX]. cbn [fst snd] in *. subst. split; [exact HR|reflexivity].
  Qed.
  Lemma range_transform_reduce_sim : forall (A B : Type) (init : A) (r1 : S1 -> A -> B -> S1 * outcome A) r2 (t1 : S1 -> list ref -> S1 * outcome B) t2 rs s1 s2,
    (forall s1 s2 a b, Rel s1 s2 -> sim Rel (r1 s1 a b) (r2 s2 a b)) -> simf Rel t1 t2 -> Rel s1 s2 ->
    sim Rel (ZipModel.range_transform_reduce init r1 t1 rs s1) (ZipModel.range_transform_reduce init r2 t2 rs s2).
  Proof.
    intros A B init r1 r2 t1 t2 rs s1 s2 FR FT H. unfold ZipModel.range_transform_reduce.
    match goal with |- sim _ (let '(_, _) := algorithm ?b1 _ ?t1 in _) (let '(_, _) := algorithm ?b2 _ ?t2 in _) => pose proof (algorithm_sim _ _ _ with_result b1 b2 rs t1 t2) as E end.
    destruct E as [HR HE]; [|split; [exact H|reflexivity]|].
    { intros [a x] [b y] args [Hab Hxy]. cbn [fst snd] in *. subst y. pose proof (FT a b args Hab) as E. simstep E.
      destruct o0 as [z| | | | |]; try (split; [split; [exact HR|reflexivity]|reflexivity]).
      pose proof (FR _ _ x z HR) as E. simstep E. destruct o0; (split; [split; [exact HR0|reflexivity]|reflexivity]). }
    match type of HR with with_result (fst ?x) (fst ?y) => destruct x as [[? ?] ?], y as [[? ?] ?] end. destruct HR as [HR HX]. cbn [fst snd] in *. subst. split; [exact HR|reflexivity].
  Qed.
  Lemma range_reduce_sim : forall (A : Type) (init : A) (r1 : S1 -> A -> ref -> S1 * outcome A) r2 r s1 s2,
    (forall s1 s2 a b, Rel s1 s2 -> sim Rel (r1 s1 a b) (r2 s2 a b)) -> Rel s1 s2 ->
    sim Rel (ZipModel.range_reduce init r1 r s1) (ZipModel.range_reduce init r2 r s2).
  Proof.
    intros A init r1 r2 r s1 s2 F H. unfold ZipModel.range_reduce. destruct (is_range_index r); [split; [exact H|reflexivity]|].
    generalize 0%Z as p. revert init s1 s2 H. induction (Z.to_nat (r_len r)) as [|n IH]; intros init s1 s2 H p; cbn [range_reduce_loop]; [split; [exact H|reflexivity]|].
    pose proof (F s1 s2 init (RElem 0 p) H) as E. simstep E. destruct o0; try (split; [exact HR|reflexivity]). apply IH. exact HR.
  Qed.
  Lemma range_generate_sim : forall (A : Type) (g1 : S1 -> S1 * outcome A) g2 elems s1 s2,
    (forall s1 s2, Rel s1 s2 -> sim Rel (g1 s1) (g2 s2)) -> Rel s1 s2 ->
    let '(s1', e1, o1) := ZipModel.range_generate g1 elems s1 in
    let '(s2', e2, o2) := ZipModel.range_generate g2 elems s2 in Rel s1' s2' /\ e1 = e2 /\ o1 = o2.
  Proof.
    intros A g1 g2 elems s1 s2 F H. unfold ZipModel.range_generate. generalize 0 as p. generalize (length elems) as n.
    intro n. revert elems s1 s2 H. induction n as [|n IH]; intros elems s1 s2 H p; cbn [range_generate_loop]; [auto|].
    pose proof (F s1 s2 H) as E. simstep E. destruct o0 as [a| | | | |]; auto.
    destruct (arr_set elems p a); auto. apply IH. exact HR.
  Qed.
End RangeSim.

(** * Memories and the states of one or two objects *)
Lemma place_eqb_eq : forall p q, place_eqb p q = true <-> p = q.
Proof.
  intros [n| |] [k| |]; cbn; try (split; congruence). rewrite Nat.eqb_eq. split; congruence.
Qed.
Lemma place_eqb_refl : forall p, place_eqb p p = true. Proof. intro p. now apply place_eqb_eq. Qed.
Lemma place_eqb_neq : forall p q, p <> q -> place_eqb p q = false.
Proof. intros p q H. destruct (place_eqb p q) eqn:E; [|reflexivity]. apply place_eqb_eq in E. congruence. Qed.

Section Memory.
  Context {St : Type}.
  Definition one (m0 : memory St) (p : place) (m : memory St) (s : St) : Prop := m p = s /\ forall q, q <> p -> m q = m0 q.
  Definition two (m0 : memory St) (p1 p2 : place) (m : memory St) (s : St * St) : Prop :=
    m p1 = fst s /\ m p2 = snd s /\ forall q, q <> p1 -> q <> p2 -> m q = m0 q.

  Lemma call_one : forall (A R : Type) (k : class St A R) c p o m0, resolve c (c_ops k) = Some o -> simf (one m0 p) (call_at k c p) (q_body o).
  Proof.
    intros A R k c p o m0 E m s a [<- H]. unfold call_at, call_as. rewrite E. destruct (q_body o (m p) a) as [s' r]. split; [|reflexivity]. cbn [fst].
    split; unfold store; [now rewrite place_eqb_refl|]. intros q Hq. rewrite (place_eqb_neq q p Hq). auto.
  Qed.
  Lemma call_first : forall (A R : Type) (k : class St A R) c p1 p2 o m0, p1 <> p2 -> resolve c (c_ops k) = Some o ->
    simf (two m0 p1 p2) (call_at k c p1) (on_first (q_body o)).
  Proof.
    intros A R k c p1 p2 o m0 Ne E m [s t] a (H1 & H2 & H). cbn [fst snd] in *. subst. unfold call_at, call_as, on_first. rewrite E. cbn [fst snd].
    destruct (q_body o (m p1) a) as [s' r]. split; [|reflexivity]. cbn [fst snd]. unfold store.
    split; [now rewrite place_eqb_refl|]. split; [rewrite place_eqb_neq by congruence; reflexivity|]. intros q Hq1 Hq2. rewrite (place_eqb_neq q p1 Hq1). auto.
  Qed.
  Lemma call_second : forall (A R : Type) (k : class St A R) c p1 p2 o m0, p1 <> p2 -> resolve c (c_ops k) = Some o ->
    simf (two m0 p1 p2) (call_at k c p2) (on_second (q_body o)).
  Proof.
    intros A R k c p1 p2 o m0 Ne E m [s t] a (H1 & H2 & H). cbn [fst snd] in *. subst. unfold call_at, call_as, on_second. rewrite E. cbn [fst snd].
    destruct (q_body o (m p2) a) as [s' r]. split; [|reflexivity]. cbn [fst snd]. unfold store.
    split; [rewrite place_eqb_neq by congruence; reflexivity|]. split; [now rewrite place_eqb_refl|]. intros q Hq1 Hq2. rewrite (place_eqb_neq q p2 Hq2). auto.
  Qed.

  Lemma works_on_sim : forall (X : Type) p (m : memory St) (r1 : memory St * outcome X) r2, sim (one m p) r1 r2 -> works_on p m (compiled m r1) r2.
  Proof.
    intros X p m [m1 o1] [s2 o2] [[E H] EO]. cbn [fst snd] in *. subst. unfold works_on, compiled. cbn [fst snd].
    destruct o2; cbn [fst snd]; (split; [reflexivity|]); split; intros N; try congruence; auto.
  Qed.
  Lemma works_on_both_sim : forall (X : Type) p1 p2 (m : memory St) (r1 : memory St * outcome X) r2, sim (two m p1 p2) r1 r2 ->
    works_on_both p1 p2 m (compiled m r1) r2.
  Proof.
    intros X p1 p2 m [m1 o1] [s2 o2] [(E1 & E2 & H) EO]. cbn [fst snd] in *. subst. unfold works_on_both, compiled. cbn [fst snd].
    destruct o2; cbn [fst snd]; (split; [reflexivity|]); split; intros N; try congruence; auto.
  Qed.
End Memory.

Lemma named_as_lvalue : forall c, named c = as_lvalue c.
Proof. intros []; reflexivity. Qed.

(** * Members of function objects *)
Lemma initialise_held : forall (St A R : Type) (f : farg St A R) p (m : memory St) cc s0 after, (forall n, p <> Caller n) ->
  held (f_class f) (m (Caller (f_obj f))) (f_cat f) cc s0 after ->
  exists m1 p', initialise f p m = Ok m1 /\ call_member f p = call_at (f_class f) cc p' /\ m1 p' = s0 /\
    (forall q, q <> p -> q <> Caller (f_obj f) -> m1 q = m q) /\
    ((p' = Caller (f_obj f) /\ (forall x, after x = x)) \/ (p' = p /\ forall x, after x = m1 (Caller (f_obj f)))).
Proof.
  intros St A R f p m cc s0 after Np H. unfold initialise, call_member. destruct H as [Lc|s' l T].
  - exists m, (Caller (f_obj f)). destruct Lc as [Ec|Ec]; rewrite Ec; (split; [reflexivity|]); (split; [reflexivity|]); (split; [reflexivity|]); (split; [auto|]); left; auto.
  - destruct T as [g s' l Em Eg|g Em Ec|g Ec].
    + rewrite Em, Eg. exists (store (store m (Caller (f_obj f)) l) p s'), p. split; [reflexivity|]. split; [reflexivity|]. unfold store.
      split; [now rewrite place_eqb_refl|]. split; [intros q Hq1 Hq2; now rewrite (place_eqb_neq q p Hq1), (place_eqb_neq q _ Hq2)|].
      right. split; [reflexivity|]. intros x. rewrite (place_eqb_neq _ p) by (intro X; symmetry in X; now apply Np in X). now rewrite place_eqb_refl.
    + rewrite Em, Ec. exists (store m p (g (m (Caller (f_obj f))))), p. split; [reflexivity|]. split; [reflexivity|]. unfold store.
      split; [now rewrite place_eqb_refl|]. split; [intros q Hq1 Hq2; now rewrite (place_eqb_neq q p Hq1)|].
      right. split; [reflexivity|]. intros x. rewrite (place_eqb_neq _ p) by (intro X; symmetry in X; now apply Np in X). reflexivity.
    + rewrite Ec. exists (store m p (g (m (Caller (f_obj f))))), p. split; [reflexivity|]. split; [reflexivity|]. unfold store.
      split; [now rewrite place_eqb_refl|]. split; [intros q Hq1 Hq2; now rewrite (place_eqb_neq q p Hq1)|].
      right. split; [reflexivity|]. intros x. rewrite (place_eqb_neq _ p) by (intro X; symmetry in X; now apply Np in X). reflexivity.
Qed.

Lemma works_with_sim : forall (St X : Type) n p' p (after : St -> St) (m m1 : memory St) (r1 : memory St * outcome X) r2, (forall k, p <> Caller k) ->
  (forall q, q <> p -> q <> Caller n -> m1 q = m q) ->
  (p' = Caller n /\ (forall x, after x = x)) \/ (p' = p /\ forall x, after x = m1 (Caller n)) ->
  sim (one m1 p') r1 r2 -> works_with n after m (compiled m r1) r2.
Proof.
  intros St X n p' p after m m1 [m2 o1] [s2 o2] Np Fr Pl [[E H] EO]. cbn [fst snd] in *. subst o1.
  assert (K : m2 (Caller n) = after s2 /\ forall k, k <> n -> m2 (Caller k) = m (Caller k)).
  { destruct Pl as [[-> Ea]|[-> Ea]].
    - split; [now rewrite Ea|]. intros k Hk. rewrite H by congruence. apply Fr; [intro X1; symmetry in X1; now apply Np in X1 | congruence].
    - split; [rewrite Ea; apply H; intro X1; symmetry in X1; now apply Np in X1|]. intros k Hk.
      rewrite H by (intro X1; symmetry in X1; now apply Np in X1). apply Fr; [intro X1; symmetry in X1; now apply Np in X1 | congruence]. }
  unfold works_with, compiled. cbn [fst snd]. destruct o2; cbn [fst snd]; (split; [reflexivity|]); split; intros N; try congruence; auto.
Qed.
