(** Properties C71 and C72: functor wrappers for value categories. *)

From Coq Require Import Arith Bool List.
From Verif Require Import Base ForwardModel ForwardSpec.
Import ListNotations.

(** C71: rvalue_ref_fn, lvalue_ref_fn and lvalue_const_ref_fn restrict the calls of a functor to one value category. *)
Theorem C71_rvalue_ref_fn : forall (St A R : Type) (f : functor St A R) c s a,
  call St A R (rvalue_ref_fn St A R f) c s a = (if match c with Rv => true | _ => false end then call St A R f Rv s a else IllFormed).
Proof. intros. destruct c; unfold call, rvalue_ref_fn, resolve, or_else; try reflexivity. destruct (f Rv); reflexivity. Qed.
Print Assumptions C71_rvalue_ref_fn.

Theorem C71_lvalue_ref_fn : forall (St A R : Type) (f : functor St A R) c s a,
  call St A R (lvalue_ref_fn St A R f) c s a = (if match c with Lv => true | _ => false end then call St A R f Lv s a else IllFormed).
Proof. intros. destruct c; unfold call, lvalue_ref_fn, resolve, or_else; try reflexivity. destruct (f Lv); reflexivity. Qed.
Print Assumptions C71_lvalue_ref_fn.

(** However it is called, lvalue_const_ref_fn calls the functor as const lvalue; a const-correct functor never changes, in
    any sequence of calls. *)
Theorem C71_lvalue_const_ref_fn : forall (St A R : Type) (f : functor St A R),
  (forall c s a, call St A R (lvalue_const_ref_fn St A R f) c s a = call St A R f CLv s a) /\
  (const_correct St A R f -> forall l s rs s', calls St A R (lvalue_const_ref_fn St A R f) s l = Ok (rs, s') -> s' = s).
Proof.
  intros St A R f.
  assert (K : forall c s a, call St A R (lvalue_const_ref_fn St A R f) c s a = call St A R f CLv s a).
  { intros c s a. destruct c; unfold call, lvalue_const_ref_fn, resolve, or_else; destruct (f CLv); reflexivity. }
  split; [exact K|]. intros Hc l. induction l as [|[c a] l IH]; intros s rs s' H; cbn in H; [congruence|].
  rewrite K in H. apply bind_ok_inv in H as ([r s1] & H1 & H). apply bind_ok_inv in H as ([rs' s2] & H2 & H).
  injection H as <- <-. apply IH in H2. subst s2. unfold call in H1. destruct (f CLv) as [b|] eqn:E; [|discriminate].
  eapply Hc; [left; reflexivity|exact E|exact H1].
Qed.
Print Assumptions C71_lvalue_const_ref_fn.

(** C72, full statement: forward_to(f) behaves, for any functor f and any category of call, like f called with that category:
    f() gives the function to call, or f(forward) with a function that forwards what f captured.  The latter form is
    ill-formed (C72_forwarder_refuted).

    forward_to(f) for f without parameters that can be called with all value categories: every sequence of calls of the wrapper
    is the same as calling f with the category of the wrapper (const rvalues count as const lvalues), and its result with the
    arguments. *)
Theorem C72_forward_to_partial : forall (St A R G : Type) (m : maker St G) (inner : cat -> option (G -> behaviour St A R)) make use,
  (forall c, m c = Some (make c) /\ inner c = Some (use c)) ->
  exists w, forward_to St A R G m inner = Ok w /\ forall l s, calls St A R w s l = forwarded_calls St A R G make use s l.
Proof.
  intros St A R G m inner make use H. unfold forward_to.
  destruct (H Lv) as [H1 H2], (H CLv) as [H3 H4], (H Rv) as [H5 H6]. rewrite H1, H2, H3, H4, H5, H6.
  eexists. split; [reflexivity|]. induction l as [|[c a] l IH]; intro s; [reflexivity|]. cbn [calls forwarded_calls].
  destruct c; unfold call, resolve, or_else, then_call; cbn [forwarded];
    match goal with |- context [make ?c s] => destruct (make c s) as [[g s1]| | | | |] end; cbn [bind]; try reflexivity;
    match goal with |- context [use ?c ?g ?s1 a] => destruct (use c g s1 a) as [[r s2]| | | | |] end; cbn [bind]; try reflexivity;
    rewrite IH; reflexivity.
Qed.
Print Assumptions C72_forward_to_partial.

(** If f can be called only as const (or as anything), non-const wrappers call it as const. *)
Theorem C72_fallback_partial : forall (St A R G : Type) (m : maker St G) (inner : cat -> option (G -> behaviour St A R)) w,
  forward_to St A R G m inner = Ok w -> forall c, (m c = None \/ inner c = None) -> c <> CRv -> forall make use s a,
  (m CLv = Some make -> inner CLv = Some use ->
   call St A R w c s a = do ' (g, s1) <- make s; use g s1 a) /\
  (m CLv = None \/ inner CLv = None -> call St A R w c s a = IllFormed).
Proof.
  intros St A R G m inner w H c Hc Nc make use s a. unfold forward_to in H. destruct (m Rv) as [mr|] eqn:Er; [|discriminate]. injection H as <-.
  unfold call, resolve, or_else, then_call. split.
  - intros E1 E2.
    rewrite E1, E2. destruct c; try congruence; destruct (m Lv), (inner Lv), (inner Rv); destruct Hc; try congruence; reflexivity.
  - intros N. destruct c; try congruence; destruct (m Lv), (m CLv), (inner Lv), (inner CLv), (inner Rv); destruct Hc, N; try congruence; reflexivity.
Qed.
Print Assumptions C72_fallback_partial.

(** A functor that expects the forwarder (and so cannot be called without arguments) cannot be wrapped. *)
Theorem C72_forwarder_rejected : forall (St A R G : Type) (m : maker St G) (inner : cat -> option (G -> behaviour St A R)),
  m Rv = None -> forward_to St A R G m inner = IllFormed.
Proof. intros St A R G m inner H. unfold forward_to. rewrite H. reflexivity. Qed.
Print Assumptions C72_forwarder_rejected.

(** A counter: as non-const lvalue it counts, as const lvalue it tells the count, as rvalue it gives its count away. *)
Definition counter : functor nat nat nat :=
  fun c => match c with
           | Lv => Some (fun s a => Ok (s + a, s + a))
           | CLv | CRv => Some (fun s a => Ok (s + a, s))
           | Rv => Some (fun s a => Ok (s, 0))
           end.
Example C71_wrappers :
  const_correct nat nat nat counter /\
  calls nat nat nat (lvalue_ref_fn _ _ _ counter) 5 [(Lv, 1); (Lv, 2)] = Ok ([6; 8], 8) /\
  calls nat nat nat (lvalue_ref_fn _ _ _ counter) 5 [(Lv, 1); (CLv, 2)] = IllFormed /\
  calls nat nat nat (rvalue_ref_fn _ _ _ counter) 5 [(Rv, 1)] = Ok ([5], 0) /\
  calls nat nat nat (lvalue_const_ref_fn _ _ _ counter) 5 [(Lv, 1); (Rv, 2); (CRv, 3)] = Ok ([6; 7; 8], 5).
Proof.
  split; [|repeat split]. intros c b s a r s' [-> | ->] E H; cbn in E; injection E as <-; congruence.
Qed.
Example C72_forward :
  let m : maker nat nat := fun c => match c with Rv => Some (fun s => Ok (s, 0)) | _ => Some (fun s => Ok (s, s)) end in
  let inner : cat -> option (nat -> behaviour nat nat nat) :=
    fun c => match c with Lv => Some (fun g s a => Ok (g + a, s + a)) | _ => Some (fun g s a => Ok (g + a, s)) end in
  exists w, forward_to nat nat nat nat m inner = Ok w /\ calls nat nat nat w 5 [(Lv, 1); (CLv, 1); (Rv, 2); (Lv, 3)] = Ok ([6; 7; 8; 3], 3).
Proof. cbn zeta. eexists. split; [reflexivity|]. reflexivity. Qed.
(** A functor that cannot be called without arguments (it expects the forwarder), and whose result can be called. *)
Theorem C72_forwarder_refuted : exists (m : maker nat nat) (inner : cat -> option (nat -> behaviour nat nat nat)),
  (forall c, inner c <> None) /\ m Rv = None /\ forward_to nat nat nat nat m inner = IllFormed.
Proof.
  exists (fun _ => None), (fun _ => Some (fun g s a => Ok (g + a, s))). split; [discriminate|]. split; reflexivity.
Qed.
Print Assumptions C72_forwarder_refuted.
