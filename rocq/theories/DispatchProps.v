(** Properties of dispatching runtime values to constants with expand() and visit(): C80. *)

From Coq Require Import ZArith Arith Bool Lia Permutation List.
From Verif Require Import Base TypeSeqModel ExpandModel ExpandSpec VariantModel DispatchModel DispatchSpec DispatchProofs.
Import ListNotations.
Local Open Scope Z_scope.

(** Never wrong: whatever constants are listed, the functor is called exactly once with the constants of the runtime values, in
    the order of the arguments, and its outcome is the outcome of the call; or it is not called at all, and there is no result. *)
Theorem C80_never_wrong : forall (S R : Type) (f : S -> list (constant * unit) -> S * outcome R) order cs s,
  Forall (fun c => let b := ity_bits (ch_type c) in let sg := ity_signed (ch_type c) in
     standard_width b /\ int_value b sg (ch_value c) /\ Forall (int_value b sg) (ch_values c) /\
     array_size_ok (ch_values c) /\ (ch_bool c = true -> ch_type c = mk_ity 1 false)) cs ->
  let constants := map (fun c => ((ch_type c, ch_value c), tt)) cs in
  (dispatch order f cs s = f s constants \/ exists r, dispatch order f cs s = (s, r) /\ forall x, r <> Ok x) /\
  (dispatch_failfast order f cs s = f s constants \/ exists r, dispatch_failfast order f cs s = (s, r) /\ forall x, r <> Ok x).
Proof. exact dispatch_sound. Qed.
Print Assumptions C80_never_wrong.

(** Exact, for any order of evaluation of the arguments and for lists for which expand() is exact: if all runtime values are
    listed, the functor is called once; otherwise it is not called, and unsupported_runtime_value is thrown (or the program
    terminates, with expand_failfast()). *)
Theorem C80_listed_partial : forall (S R : Type) (f : S -> list (constant * unit) -> S * outcome R) order cs s,
  evaluation_order (length cs) order ->
  Forall (fun c => expandable (ity_bits (ch_type c)) (ity_signed (ch_type c)) (ch_values c) (ch_value c) /\
     (ch_bool c = true -> ch_type c = mk_ity 1 false)) cs ->
  Forall (fun c => In (ch_value c) (ch_values c)) cs ->
  let constants := map (fun c => ((ch_type c, ch_value c), tt)) cs in
  dispatch order f cs s = f s constants /\ dispatch_failfast order f cs s = f s constants.
Proof. exact (fun S R f => @dispatch_listed S R f). Qed.
Print Assumptions C80_listed_partial.

Theorem C80_unlisted_partial : forall (S R : Type) (f : S -> list (constant * unit) -> S * outcome R) order cs s,
  evaluation_order (length cs) order ->
  Forall (fun c => expandable (ity_bits (ch_type c)) (ity_signed (ch_type c)) (ch_values c) (ch_value c) /\
     (ch_bool c = true -> ch_type c = mk_ity 1 false)) cs ->
  Exists (fun c => ~ In (ch_value c) (ch_values c)) cs ->
  dispatch order f cs s = (s, Throw UnsupportedRuntimeValue) /\ dispatch_failfast order f cs s = (s, Contract).
Proof. exact (fun S R f => @dispatch_unlisted S R f). Qed.
Print Assumptions C80_unlisted_partial.

(** Any number of booleans. *)
Theorem C80_booleans : forall (S R : Type) (f : S -> list (constant * unit) -> S * outcome R) order (bs : list bool) s,
  evaluation_order (length bs) order ->
  dispatch order f (map bool_choice bs) s = f s (map (fun b : bool => ((mk_ity 1 false, if b then 1 else 0), tt)) bs).
Proof.
  intros S R f order bs s O. rewrite <- bool_constants. apply dispatch_listed.
  - rewrite map_length. exact O.
  - apply Forall_forall. intros c C. apply in_map_iff in C as [b [<- _]]. apply bool_choice_good.
  - apply Forall_forall. intros c C. apply in_map_iff in C as [b [<- _]]. apply bool_choice_good.
Qed.
Print Assumptions C80_booleans.

(** The functor appends its arguments to the state and returns the product of the constants. *)
Definition ex_f (s : list Z) (args : list (constant * unit)) : list Z * outcome Z :=
  (s ++ map (fun a => snd (fst a)) args, Ok (fold_right (fun a p => snd (fst a) * p) 1 args)).
Definition ex_cs (bits logging : Z) : list choice :=
  [mk_choice (mk_ity 32 true) false [16; 32; 64] bits; mk_choice (mk_ity 8 false) false [3; 1; 4; 7] logging].

Example C80_example :
  evaluation_order 2 [1%nat; 0%nat] /\
  Forall (fun c => expandable (ity_bits (ch_type c)) (ity_signed (ch_type c)) (ch_values c) (ch_value c) /\
     (ch_bool c = true -> ch_type c = mk_ity 1 false)) (ex_cs 64 7) /\
  dispatch [1%nat; 0%nat] ex_f (ex_cs 64 7) [5] = ([5; 64; 7], Ok 448) /\
  dispatch [0%nat; 1%nat] ex_f (ex_cs 64 2) [5] = ([5], Throw UnsupportedRuntimeValue) /\
  dispatch [1%nat; 0%nat] ex_f (ex_cs 8 2) [5] = ([5], Throw UnsupportedRuntimeValue) /\
  dispatch_failfast [0%nat; 1%nat] ex_f (ex_cs 8 7) [5] = ([5], Contract) /\
  dispatch [1%nat; 2%nat; 0%nat] ex_f (map bool_choice [true; false; true]) [] = ([1; 0; 1], Ok 0).
Proof.
  split; [apply perm_swap|]. split; [|repeat split; reflexivity].
  repeat (apply Forall_cons; [|]); try apply Forall_nil; (split; [|discriminate]); unfold expandable; cbn [ch_type ch_values ch_value ity_bits ity_signed].
  - split; [unfold standard_width; auto|]. split; [cbn; lia|].
    split; [repeat (apply Forall_cons; [cbn; lia|]); apply Forall_nil|]. split; [unfold array_size_ok; cbn; lia|].
    split; [repeat constructor; cbn; intuition discriminate|]. split; [discriminate|]. split.
    + intros _ i L. cbn in L. do 3 (destruct i as [|i]; [cbn; discriminate|]). lia.
    + intros _ _ _ x0 E. injection E as <-. cbn. lia.
  - split; [unfold standard_width; auto|]. split; [cbn; lia|].
    split; [repeat (apply Forall_cons; [cbn; lia|]); apply Forall_nil|]. split; [unfold array_size_ok; cbn; lia|].
    split; [repeat constructor; cbn; intuition discriminate|]. split; [discriminate|]. split.
    + intros H. lia.
    + intros _ H. lia.
Qed.

(** variant_transform(): the result variant holds the result of the functor for the constants of the runtime values, as the
    alternative of that result type; a functor that returns nothing for them ends the program after the call. *)
Theorem C80_transform_partial : forall (T S : Type) (eq_dec : forall a b : T, {a = b} + {a <> b}) of_constant fres
    (f : S -> list (T * unit) -> S * outcome unit) order cs R s s',
  evaluation_order (length cs) order ->
  Forall (fun c => expandable (ity_bits (ch_type c)) (ity_signed (ch_type c)) (ch_values c) (ch_value c) /\
     (ch_bool c = true -> ch_type c = mk_ity 1 false)) cs ->
  Forall (fun c => In (ch_value c) (ch_values c)) cs ->
  let ts := map (fun c => of_constant (ch_type c, ch_value c)) cs in
  variant_transform_result eq_dec fres (map (fun c => map of_constant (alternatives c)) cs) = Ok R ->
  f s (map (fun t => (t, tt)) ts) = (s', Ok tt) ->
  (forall t, fres ts = Some t ->
    exists i, dispatch_transform eq_dec order of_constant fres f cs s = (s', Ok (i, tt)) /\ nth_error R i = Some t) /\
  (fres ts = None -> dispatch_transform eq_dec order of_constant fres f cs s = (s', Contract)).
Proof. exact @dispatch_transform_listed. Qed.
Print Assumptions C80_transform_partial.

Theorem C80_transform_unlisted_partial : forall (T S : Type) (eq_dec : forall a b : T, {a = b} + {a <> b}) of_constant fres
    (f : S -> list (T * unit) -> S * outcome unit) order cs s,
  evaluation_order (length cs) order ->
  Forall (fun c => expandable (ity_bits (ch_type c)) (ity_signed (ch_type c)) (ch_values c) (ch_value c) /\
     (ch_bool c = true -> ch_type c = mk_ity 1 false)) cs ->
  Exists (fun c => ~ In (ch_value c) (ch_values c)) cs ->
  dispatch_transform eq_dec order of_constant fres f cs s = (s, Throw UnsupportedRuntimeValue).
Proof. exact @dispatch_transform_unlisted. Qed.
Print Assumptions C80_transform_unlisted_partial.

(** The functor maps constants (a, b) to the type a + b: two of the four combinations give the same type. *)
Example C80_transform_example :
  let fres ts := match ts with [a; b] => Some (a + b) | _ => None end in
  let f s (args : list (Z * unit)) := (s ++ map fst args, Ok tt) in
  let cs x y := [mk_choice (mk_ity 8 false) false [1; 2] x; mk_choice (mk_ity 8 true) false [10; 11] y] in
  variant_transform_result Z.eq_dec fres (map (fun c => map snd (alternatives c)) (cs 2 10)) = Ok [11; 12; 13] /\
  dispatch_transform Z.eq_dec [1%nat; 0%nat] snd fres f (cs 2 10) [7] = ([7; 2; 10], Ok (1%nat, tt)) /\
  dispatch_transform Z.eq_dec [1%nat; 0%nat] snd fres f (cs 2 11) [7] = ([7; 2; 11], Ok (2%nat, tt)) /\
  dispatch_transform Z.eq_dec [1%nat; 0%nat] snd fres f (cs 3 11) [7] = ([7], Throw UnsupportedRuntimeValue).
Proof. repeat split; reflexivity. Qed.

(** Without the conditions on the list, a listed value may be reported as unsupported. *)
Theorem C80_listed_refuted :
  exists c, int_value (ity_bits (ch_type c)) (ity_signed (ch_type c)) (ch_value c) /\
    Forall (int_value (ity_bits (ch_type c)) (ity_signed (ch_type c))) (ch_values c) /\
    NoDup (ch_values c) /\ In (ch_value c) (ch_values c) /\
    forall (S R : Type) (f : S -> list (constant * unit) -> S * outcome R) s,
      dispatch [0%nat] f [c] s = (s, Throw UnsupportedRuntimeValue).
Proof.
  exists (mk_choice (mk_ity 32 false) false [4294967295; 0] 0). cbn.
  split; [lia|]. split; [repeat (apply Forall_cons; [cbn; lia|]); apply Forall_nil|].
  split; [repeat constructor; cbn; intuition discriminate|]. split; [auto|]. intros. reflexivity.
Qed.
Print Assumptions C80_listed_refuted.
