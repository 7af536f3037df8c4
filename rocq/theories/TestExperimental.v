(** The library's own tests of buffers, type enumerations and spans of structures of arrays, /repo/test/experimental/test-buffer.cpp,
    test-enum.cpp and test-span.cpp, replayed on the model.  They test the model, not the code; nothing is proved here beyond
    these cases. *)

From Coq Require Import ZArith Arith Bool List.
From Verif Require Import Base ExpandModel BufferModel TypeEnumModel SoaModel.
Import ListNotations.
Open Scope Z_scope.

Local Ltac vmr := vm_compute; reflexivity.

(** test-buffer.cpp:16-30.  The third and the last buffer use the heap if larger than the small buffer.  The test has no
    CHECK(); the elements are listed here after each assignment. *)
Definition brun (h : list (op (V := Z))) := snd (run 0 true (fun v => v) h initial).
Example test_buffer :
  brun [make_buffer (mk_size int32 true 1) true; OAssignArray 0 [1] None;
        make_buffer_max 1 (mk_size int32 true 5) true; OAssignArray 1 [1; 4; 1; 4; 2] None;
        make_buffer_max 4 (mk_size int32 false 3) true; OAssignArray 2 [1; 4; 1] None;
        make_buffer_max 4 (mk_size int32 false 7) true; OAssignArray 3 [1; 4; 1; 4; 2; 1; 3] None;
        OIterate 0; OIterate 1; OIterate 2; OIterate 3; ODestroy 3; ODestroy 2; ODestroy 1; ODestroy 0] =
  [inl (RObj 0); inl RUnit; inl (RObj 1); inl RUnit; inl (RObj 2); inl RUnit; inl (RObj 3); inl RUnit;
   inl (RVals [1]); inl (RVals [1; 4; 1; 4; 2]); inl (RVals [1; 4; 1]); inl (RVals [1; 4; 1; 4; 2; 1; 3]);
   inl RUnit; inl RUnit; inl RUnit; inl RUnit].
Proof. vmr. Qed.

(** test-enum.cpp:18-34.  The types: 0 is float, 1 is double. *)
Definition FloatTypes : list nat := [0; 1]%nat.
Definition float_ := 0%nat. Definition double_ := 1%nat.
Example test_enum :
  (do floatTypes <- enum_of_type Nat.eq_dec FloatTypes float_; enum_ne_type Nat.eq_dec FloatTypes floatTypes double_) = Ok true /\
  (do floatTypes <- enum_of_type Nat.eq_dec FloatTypes float_; do l <- case_label Nat.eq_dec FloatTypes float_; Ok (enum_eq floatTypes l)) = Ok true /\
  (do floatTypes <- enum_of_type Nat.eq_dec FloatTypes float_; do l <- case_label Nat.eq_dec FloatTypes double_; Ok (enum_eq floatTypes l)) = Ok false.
Proof. repeat split; vmr. Qed.

(** test-span.cpp:14-42. *)
Definition n42 := 42%nat.
Definition m0 : memory (V := Z) := [mk_block false (map Z.of_nat (seq 0 n42)); mk_block false (repeat 0 n42)].
Definition spans : list span := [mk_span false (PAt 0 0) (Z.of_nat n42); mk_span false (PAt 1 0) (Z.of_nat n42)].
Definition test_body (a : unit) (st : state (V := Z)) (r : reference) : outcome (unit * state) :=
  do v <- ref_get_read st r 0; do st' <- ref_get_write st r 1 v; Ok (a, st').
Example test_span :
  (do s <- soa_span spans; let '(st, os) := new_obj (mk_state m0 []) s in
   do ss <- subspan m0 s 2 3; let '(st1, oss) := new_obj st ss in
   do ' (_, st2) <- soa_for test_body 42 tt st1 oss;
   Ok (map b_elems (mem st2))) =
  Ok [map Z.of_nat (seq 0 n42); map (fun i => if (2 <=? i) && (i <? 5) then i else 0) (map Z.of_nat (seq 0 n42))] /\
  (do s <- soa_span spans; let '(st, os) := new_obj (mk_state m0 []) s in
   do e <- end_ st os; do b <- begin_ st os; it_diff e b) = Ok (Z.of_nat n42).
Proof. split; vmr. Qed.
