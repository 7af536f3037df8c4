(** Theorems about the copying done by references of soa_span<>: C109. *)

From Coq Require Import ZArith Arith Bool Lia Permutation List.
From Verif Require Import Base ThrowModel ThrowSpec SoaCopyModel SoaCopySpec SoaCopyProofs.
Import ListNotations.
Local Open Scope Z_scope.

(** Assigning a reference assigns the components one after another, each once; when an assignment throws, nothing more is assigned and the program is
    terminated. *)
Theorem C109_assign : forall (S P E : Type) (at_ : P -> Z -> E) (assign : S -> E -> E -> S * outcome unit) dst i src j pairs s,
  length src = length dst -> paired (fun p q => (at_ p i, at_ q j)) dst src pairs ->
  let op := fun s x => assign s (fst x) (snd x) in
  (forall s', performed op s pairs s' -> assign_reference at_ assign dst i src j s = (s', Ok tt)) /\
  (forall ys x zs s1 s2 e, pairs = ys ++ x :: zs -> performed op s ys s1 -> op s1 x = (s2, Throw e) ->
     assign_reference at_ assign dst i src j s = (s2, Contract)).
Proof.
  intros S P E at_ assign dst i src j pairs s Hl Hp op. exact (run_spec (fun p q => (at_ p i, at_ q j)) op dst src pairs s Hl Hp).
Qed.
Print Assumptions C109_assign.

Theorem C109_assign_tuple : forall (S P E V : Type) (at_ : P -> Z -> E) (assign_value : S -> E -> V -> S * outcome unit) dst i vals pairs s,
  length vals = length dst -> paired (fun p v => (at_ p i, v)) dst vals pairs ->
  let op := fun s x => assign_value s (fst x) (snd x) in
  (forall s', performed op s pairs s' -> assign_tuple at_ assign_value dst i vals s = (s', Ok tt)) /\
  (forall ys x zs s1 s2 e, pairs = ys ++ x :: zs -> performed op s ys s1 -> op s1 x = (s2, Throw e) ->
     assign_tuple at_ assign_value dst i vals s = (s2, Contract)).
Proof.
  intros S P E V at_ assign_value dst i vals pairs s Hl Hp op. exact (run_spec (fun p v => (at_ p i, v)) op dst vals pairs s Hl Hp).
Qed.
Print Assumptions C109_assign_tuple.

(** Swapping swaps the components one after another; it does not compile if one of them is const. *)
Theorem C109_swap : forall (S P E : Type) (at_ : P -> Z -> E) (swap : S -> E -> E -> S * outcome unit) consts lhs i rhs j pairs s,
  length rhs = length lhs -> paired (fun p q => (at_ p i, at_ q j)) lhs rhs pairs ->
  let op := fun s x => swap s (fst x) (snd x) in
  (~ In true consts ->
    (forall s', performed op s pairs s' -> swap_references at_ swap consts lhs i rhs j s = (s', Ok tt)) /\
    (forall ys x zs s1 s2 e, pairs = ys ++ x :: zs -> performed op s ys s1 -> op s1 x = (s2, Throw e) ->
       swap_references at_ swap consts lhs i rhs j s = (s2, Contract))) /\
  (In true consts -> swap_references at_ swap consts lhs i rhs j s = (s, IllFormed)).
Proof.
  intros S P E at_ swap consts lhs i rhs j pairs s Hl Hp op. unfold swap_references. destruct (existsb (fun c => c) consts) eqn:Ex; split; intro H.
  - exfalso. apply H. apply existsb_exists in Ex. destruct Ex as [c [Hc Ec]]. rewrite Ec in Hc. exact Hc.
  - reflexivity.
  - exact (run_spec (fun p q => (at_ p i, at_ q j)) op lhs rhs pairs s Hl Hp).
  - assert (X : existsb (fun c : bool => c) consts = true) by (apply existsb_exists; exists true; split; [exact H|reflexivity]). congruence.
Qed.
Print Assumptions C109_swap.

(** Converting a reference to a tuple copies every element once and moves every copy once; when one of these throws, the program is terminated. *)
Theorem C109_to_tuple : forall (S P E V : Type) (at_ : P -> Z -> E) (copy : S -> E -> S * outcome V) (move : S -> V -> S * outcome V)
    order order' src index s elems,
  Permutation order (seq 0 (length src)) -> Permutation order' (seq 0 (length src)) -> elems = map (fun p => at_ p index) src ->
  let copies := fun s x s' o => copy s x = (s', o) in
  let moves := fun s x s' o => move s x = (s', o) in
  (forall l s1 vs l' s2 ws, all_read copies elems s order l s1 -> values (length src) l vs ->
     all_read moves vs s1 order' l' s2 -> values (length src) l' ws -> to_tuple at_ copy move order order' src index s = (s2, Ok ws)) /\
  (forall ps p qs l s1 x s2 e, order = ps ++ p :: qs -> all_read copies elems s ps l s1 -> nth_error elems p = Some x ->
     copy s1 x = (s2, Throw e) -> to_tuple at_ copy move order order' src index s = (s2, Contract)) /\
  (forall l s1 vs ps p qs l' s2 v s3 e, all_read copies elems s order l s1 -> values (length src) l vs -> order' = ps ++ p :: qs ->
     all_read moves vs s1 ps l' s2 -> nth_error vs p = Some v -> move s2 v = (s3, Throw e) ->
     to_tuple at_ copy move order order' src index s = (s3, Contract)).
Proof.
  intros S P E V at_ copy move order order' src index s elems Ho Ho' -> copies moves.
  exact (to_tuple_spec at_ copy move order order' src index s Ho Ho').
Qed.
Print Assumptions C109_to_tuple.

(** No exception ever leaves these functions, whatever the operations of the element types do. *)
Theorem C109_never_throws : forall (S P E V : Type) (at_ : P -> Z -> E) assign assign_value copy move swap consts dst i src j (vals : list V) order order' (s : S) e,
  snd (assign_reference at_ assign dst i src j s) <> Throw e /\
  snd (assign_tuple (P := P) (E := E) at_ assign_value dst i vals s) <> Throw e /\
  snd (swap_references at_ swap consts dst i src j s) <> Throw e /\
  snd (to_tuple (V := V) at_ copy move order order' src j s) <> Throw e.
Proof.
  intros. unfold assign_reference, assign_tuple, swap_references, to_tuple.
  repeat split; try apply noexcept_never. destruct (existsb (fun c => c) consts); [discriminate|apply noexcept_never].
Qed.
Print Assumptions C109_never_throws.

(** The two cases of the theorems above are all there are when the operations return or throw. *)
Theorem C109_cases : forall (S X : Type) (op : S -> X -> S * outcome unit), total op -> forall xs s,
  (exists s', performed op s xs s') \/ exists ys x zs s1 s2 e, xs = ys ++ x :: zs /\ performed op s ys s1 /\ op s1 x = (s2, Throw e).
Proof. intros S X op H xs s. exact (for_each_cases op H xs s). Qed.
Print Assumptions C109_cases.

(** Examples: arrays 0, 1, 2 whose elements are numbered; the state is a log of the operations, (kind, array, index); the operations on array 2 throw
    if [fails]. *)
Definition slot (p : nat) (i : Z) : nat * Z := (p, i).
Definition logs (fails : bool) (kind : nat) (s : list (nat * (nat * Z))) (a : nat * Z) : list (nat * (nat * Z)) * outcome unit :=
  (s ++ [(kind, a)], if fails && Nat.eqb (fst a) 2 then Throw (UserException 5) else Ok tt).
Definition logs_value (fails : bool) (kind : nat) (s : list (nat * (nat * Z))) (a : nat * Z) : list (nat * (nat * Z)) * outcome (nat * Z) :=
  (s ++ [(kind, a)], if fails && Nat.eqb (fst a) 2 then Throw (UserException 5) else Ok a).
Example C109_total_example : forall fails kind, total (logs fails kind).
Proof. intros fails kind s a. unfold logs. destruct (fails && Nat.eqb (fst a) 2); [right|left]; eauto. Qed.
Example C109_paired_example : paired (fun p q => (slot p 3, slot q 4)) [0; 1; 2]%nat [0; 1; 2]%nat [((0%nat, 3), (0%nat, 4)); ((1%nat, 3), (1%nat, 4)); ((2%nat, 3), (2%nat, 4))].
Proof. split; [reflexivity|]. intros [|[|[|[|k]]]] a b H1 H2; cbn in H1, H2; try discriminate; injection H1 as <-; injection H2 as <-; reflexivity. Qed.
Example C109_performed_example :
  performed (fun s (x : (nat * Z) * (nat * Z)) => logs true 0 s (fst x)) [] [((0%nat, 3), (0%nat, 4)); ((1%nat, 3), (1%nat, 4))] [(0%nat, (0%nat, 3)); (0%nat, (1%nat, 3))].
Proof. repeat (econstructor; [reflexivity|]). constructor. Qed.
Example C109_assign_example :
  assign_reference slot (fun s a b => logs false 0 s a) [0; 1; 2]%nat 3 [0; 1; 2]%nat 4 [] = ([(0, (0, 3%Z)); (0, (1, 3%Z)); (0, (2, 3%Z))]%nat, Ok tt) /\
  assign_tuple slot (fun s a v => logs false 0 s a) [0; 1; 2]%nat 3 [7; 8; 9] [] = ([(0, (0, 3%Z)); (0, (1, 3%Z)); (0, (2, 3%Z))]%nat, Ok tt) /\
  assign_reference slot (fun s a b => logs true 0 s a) [0; 2; 1]%nat 3 [0; 2; 1]%nat 4 [] = ([(0, (0, 3%Z)); (0, (2, 3%Z))]%nat, Contract).
Proof. vm_compute. repeat split; reflexivity. Qed.
Example C109_to_tuple_example :
  to_tuple slot (logs_value false 0) (logs_value false 1) [1; 0]%nat [0; 1]%nat [4; 6]%nat 3 [] =
    ([(0, (6, 3%Z)); (0, (4, 3%Z)); (1, (4, 3%Z)); (1, (6, 3%Z))]%nat, Ok [(4%nat, 3); (6%nat, 3)]) /\
  to_tuple slot (logs_value true 0) (logs_value true 1) [1; 0]%nat [0; 1]%nat [2; 6]%nat 3 [] = ([(0, (6, 3%Z)); (0, (2, 3%Z))]%nat, Contract).
Proof. vm_compute. repeat split; reflexivity. Qed.
(** std::swap() moves three times per component. *)
Example C109_swap_example :
  swap_references slot (std_swap (fun s a v => logs false 2 s a) (logs_value false 0) (fun s a b => logs false 1 s a)) [false; false] [0; 1]%nat 3 [0; 1]%nat 4 [] =
    ([(0, (0, 3%Z)); (1, (0, 3%Z)); (2, (0, 4%Z)); (0, (1, 3%Z)); (1, (1, 3%Z)); (2, (1, 4%Z))]%nat, Ok tt) /\
  swap_references slot (std_swap (fun s a v => logs false 2 s a) (logs_value false 0) (fun s a b => logs false 1 s a)) [false; true] [0; 1]%nat 3 [0; 1]%nat 4 [] = ([], IllFormed).
Proof. vm_compute. split; reflexivity. Qed.

(** std::swap() performs the three moves in this order and stops at the first that throws. *)
Theorem C109_std_swap : forall (S E V : Type) (assign_value : S -> E -> V -> S * outcome unit) (move_from : S -> E -> S * outcome V)
    (move_assign : S -> E -> E -> S * outcome unit) s a b,
  (forall s1 tmp s2 s3 o, move_from s a = (s1, Ok tmp) -> move_assign s1 a b = (s2, Ok tt) -> assign_value s2 b tmp = (s3, o) ->
     std_swap assign_value move_from move_assign s a b = (s3, o)) /\
  (forall s1 e, move_from s a = (s1, Throw e) -> std_swap assign_value move_from move_assign s a b = (s1, Throw e)) /\
  (forall s1 tmp s2 e, move_from s a = (s1, Ok tmp) -> move_assign s1 a b = (s2, Throw e) -> std_swap assign_value move_from move_assign s a b = (s2, Throw e)).
Proof.
  intros. unfold std_swap. repeat split.
  - intros s1 tmp s2 s3 o H1 H2 H3. rewrite H1, H2. exact H3.
  - intros s1 e H1. rewrite H1. reflexivity.
  - intros s1 tmp s2 e H1 H2. rewrite H1, H2. reflexivity.
Qed.
Print Assumptions C109_std_swap.

(** Exceptions thrown when copying elements do not reach the caller. *)
Theorem C109_exceptions_refuted : exists dst src i j,
  length src = length dst /\
  logs true 0 [] (slot 2 i) = ([(0%nat, (2%nat, i))], Throw (UserException 5)) /\
  assign_reference slot (fun s a b => logs true 0 s a) dst i src j [] = ([(0%nat, (2%nat, i))], Contract) /\
  assign_tuple slot (fun s a v => logs true 0 s a) dst i [tt] [] = ([(0%nat, (2%nat, i))], Contract) /\
  swap_references slot (fun s a b => logs true 0 s a) [false] dst i src j [] = ([(0%nat, (2%nat, i))], Contract) /\
  to_tuple slot (logs_value true 0) (logs_value true 1) [0%nat] [0%nat] dst i [] = ([(0%nat, (2%nat, i))], Contract).
Proof. exists [2%nat], [2%nat], 0, 1. vm_compute. repeat split; reflexivity. Qed.
Print Assumptions C109_exceptions_refuted.
