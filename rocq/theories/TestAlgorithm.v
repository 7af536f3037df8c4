(** The library's own tests of the range algorithms, /repo/test/test-algorithm.cpp, replayed on the model: every CHECK and static
    assertion.  They test the model, not the code; nothing is proved here beyond these cases. *)

From Coq Require Import ZArith NArith Bool List.
From Verif Require Import Base ZipModel.
Import ListNotations.
Local Open Scope Z_scope.

(** The static assertions about common_iterator_tag<>: test-algorithm.cpp:22-33.  std::is_base_of<input_iterator_tag, R> etc. *)
Definition at_least (c : category) (r : outcome (option category * bool)) : bool :=
  match r with
  | Ok (Some d, _) => (input_bit c <=? input_bit d)%N
  | _ => false
  end.
Example tags :
  at_least CInput (common_iterator_tag [CInput; CForward]) = true /\
  at_least CForward (common_iterator_tag [CBidirectional; CForward]) = true /\
  at_least CForward (common_iterator_tag [CInput; CForward]) = false /\
  common_iterator_tag [CInput; COutput] = Ok (None, false).
Proof. repeat split; vm_compute; reflexivity. Qed.

(** The ranges of the test: test-algorithm.cpp:38-45.  [elements]: what argument [k] holds. *)
Definition vec (n : Z) : rng := {| r_mode := MIndex; r_known := KDynamic; r_len := n |}.
Definition lst (n : Z) : rng := {| r_mode := MIter; r_known := KDynamic; r_len := n |}.
Definition arr (n : Z) : rng := {| r_mode := MIndex; r_known := KStatic; r_len := n |}.
Definition idx : rng := {| r_mode := MRangeIndex; r_known := KUnknown; r_len := 0 |}.
Definition vec3 : list Z := [1; 2; 3].
Definition list3 : list Z := [11; 12; 13].
Definition arr3 : list Z := [21; 22; 23].
Definition load (elements : list (list Z)) (r : ref) : option Z :=
  match r with
  | RElem k p => match nth_error elements k with Some l => nth_error l (Z.to_nat p) | None => None end
  | RIdx i => Some i
  end.
Definition values (elements : list (list Z)) (o : outcome (list ref)) : outcome (list (option Z)) := do rs <- o; Ok (map (load elements) rs).
(** What a range-based for loop sees. *)
Definition seen (elements : list (list Z)) (rs : list rng) : outcome (list (list (option Z))) :=
  do z <- range_zip rs;
  match zip_traverse (R := unit) (fun s args => (s ++ [map (load elements) args], Ok None)) z [] with
  | (s, Ok _) => Ok s
  | (_, o) => do _ <- o; Ok []
  end.

(** SECTION "empty": 47-57. *)
Example zip_empty : (do z <- range_zip [idx; lst 0; vec 0]; Ok (zip_size z)) = Ok 0 /\ seen [[]; []; []] [idx; lst 0; vec 0] = Ok [].
Proof. split; vm_compute; reflexivity. Qed.
Example zip_empty_category : at_least CBidirectional (common_iterator_tag [CRandomAccess; CBidirectional; CRandomAccess]) = true.
Proof. reflexivity. Qed.
(** SECTION "basic use": 58-78. *)
Example zip_basic : seen [list3; vec3] [lst 3; vec 3] = Ok [[Some 11; Some 1]; [Some 12; Some 2]; [Some 13; Some 3]].
Proof. vm_compute. reflexivity. Qed.
Example zip_basic_iterators :
  exists z, range_zip [lst 3; vec 3] = Ok z /\ zip_size z = 3 /\
  exists it', zip_inc (zip_range_begin z) = Ok it' /\
  zip_eqb (zip_range_begin z) (zip_common_end z) = false /\
  zip_dec it' = Ok (zip_range_begin z) /\ zip_eqb it' (zip_range_begin z) = false.
Proof. eexists. split; [reflexivity|]. split; [reflexivity|]. eexists. repeat split. Qed.
(** SECTION "basic use with index": 79-92. *)
Example zip_index : seen [[]; vec3; list3] [idx; vec 3; lst 3] = Ok [[Some 0; Some 1; Some 11]; [Some 1; Some 2; Some 12]; [Some 2; Some 3; Some 13]].
Proof. vm_compute. reflexivity. Qed.
(** SECTION "random access": 93-108. *)
Example zip_random :
  exists z, range_zip [arr 3; vec 3; idx] = Ok z /\ zip_size z = 3 /\
  values [arr3; vec3; []] (zip_at z 1) = Ok [Some 22; Some 2; Some 1] /\
  zip_eqb (zip_range_begin z) (zip_common_end z) = false /\ zip_ltb (zip_range_begin z) (zip_range_begin z) = false /\
  exists it, zip_advance (zip_range_begin z) 1 = Ok it /\ zip_ltb (zip_range_begin z) it = true /\
  values [arr3; vec3; []] (zip_subscript it 1) = Ok [Some 23; Some 3; Some 2] /\
  values [arr3; vec3; []] (zip_subscript it (-1)) = Ok [Some 21; Some 1; Some 0] /\
  exists it', zip_retreat it 0 = Ok it' /\ zip_diff it' (zip_range_begin z) = 1.
Proof.
  eexists. split; [vm_compute; reflexivity|]. split; [reflexivity|]. split; [vm_compute; reflexivity|]. split; [reflexivity|]. split; [reflexivity|].
  eexists. split; [vm_compute; reflexivity|]. split; [reflexivity|]. split; [vm_compute; reflexivity|]. split; [vm_compute; reflexivity|].
  eexists. split; vm_compute; reflexivity.
Qed.
(** SECTION "error when trying to combine ranges with different sizes": 114-120, also the line commented out; SECTION "error if size
    cannot be inferred": 121-125. *)
Example zip_mismatch : range_zip [vec 3; vec 0] = Contract /\ range_zip [arr 0; arr 3] = IllFormed /\ range_zip [idx] = IllFormed.
Proof. repeat split; vm_compute; reflexivity. Qed.

(** TEST_CASE "range_for()": 128-147. *)
Example for_index :
  range_for (fun s args => (s ++ [map (load [[]; vec3; list3]) args], Ok tt)) [idx; vec 3; lst 3] [] =
  ([[Some 0; Some 1; Some 11]; [Some 1; Some 2; Some 12]; [Some 2; Some 3; Some 13]], Ok tt).
Proof. vm_compute. reflexivity. Qed.
