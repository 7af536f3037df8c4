(** The library's own tests of metadata, /repo/test/test-metadata.cpp, replayed on the model: every CHECK and static assertion.
    They test the model, not the code; nothing is proved here beyond these cases.  Floating-point numbers are integers here. *)

From Coq Require Import String Ascii ZArith Arith Bool List.
From Verif Require Import Base TupleModel MetaModel.
Import ListNotations.

Local Ltac vmr := vm_compute; reflexivity.

(** The types: Color0 ... Color7 are 0 ... 7. *)
Definition COO0 := 10. Definition COO1 := 11. Definition COO2 := 12. Definition COO3 := 13. Definition COO4 := 14.
Definition SubCOO0a := 20. Definition SubCOO0b := 21. Definition SubCOO1 := 22. Definition SubCOO2 := 23.
Definition AltLayoutSubCOO1 := 24. Definition AltLayoutCOO1 := 25.
Definition int_ := 30. Definition double_ := 31.
Definition is_class (t : nat) : bool := (8 <=? t) && (t <=? 29).
Definition is_base_of (b t : nat) : bool :=
  (is_class b && Nat.eqb b t) || (Nat.eqb b COO4 && existsb (Nat.eqb t) [SubCOO0a; SubCOO0b; SubCOO1; SubCOO2]).
Definition s_ (s : string) : md := MStr true (lit s).
Definition sv (s : string) : md := MStr false (lit s).
Definition red (t : nat) := MVal t 0. Definition green (t : nat) := MVal t 1.
(** &T::i, &T::j, &T::v, &T::v2. *)
Definition mi (t : nat) := MMember t int_ 0. Definition mj (t : nat) := MMember t int_ 1.
Definition mv (t : nat) := MMember t double_ 2. Definition mv2 (t : nat) := MMember t double_ 3.
Definition records (t : nat) : list md := [MTuple [red t; s_ "red"; s_ "red color"]; MTuple [green t; s_ "green"; s_ "green color"]].
Definition coo_records (t : nat) : list md :=
  [MTuple [mi t; s_ "i"; s_ "row index"]; MTuple [mj t; s_ "j"; s_ "column index"]; MTuple [mv t; s_ "v"; s_ "element"]].

(** The reflect() functions: test-metadata.cpp:22-203. *)
Definition reflect (t : nat) : md :=
  match t with
  | 1 => s_ "Color1"
  | 2 => MTuple [s_ "Color2"; MArray (TVal 2) [red 2; green 2]; s_ "color 2"]
  | 3 => MArray (TVal 3) [red 3; green 3]
  | 4 => MArray (TTuple [TVal 4; TStr true]) [MTuple [red 4; s_ "red"]; MTuple [green 4; s_ "green"]]
  | 5 => MTuple [s_ "Color5"; s_ "color 5"; MArray (TTuple [TVal 5; TStr true; TStr true]) (records 5)]
  | 6 => MTuple [s_ "Color6"; s_ "color 6"; MTuple (records 6)]
  | 7 => MTuple (records 7)
  | 11 => MTuple [mi COO1; mj COO1; mv COO1]
  | 12 => MTuple [s_ "COO2"; MTuple [mi COO2; mj COO2; mv COO2]; s_ "COO 2"]
  | 13 => MTuple (coo_records COO3)
  | 14 => MTuple [s_ "COO4"; s_ "COO 4"; MTuple (coo_records COO4)]
  | 20 => MBase COO4
  | 21 => MTuple [MBase COO4]
  | 22 => MTuple [MTuple [MBase COO4]; MTuple [mv2 SubCOO1]]
  | 23 => MTuple [MTuple [MBase COO4]; MTuple [MTuple [mv2 SubCOO2; s_ "v2"; s_ "element"]]]
  | 24 => MTuple [MTuple [mv 24; s_ "v"]; MTuple [mv2 24; s_ "v2"]; MTuple [mi 24; s_ "i"]; MTuple [mj 24; s_ "j"]]
  | 25 => MTuple [MTuple [mv 25; s_ "v"]; MTuple [mi 25; s_ "i"]; MTuple [mj 25; s_ "j"]]
  | _ => MNullopt
  end.

(** Everything about an enumeration: name, description, bases, values, value names and descriptions. *)
Definition about_enum (t : nat) :=
  (is_available (reflect t), name (reflect t), description (reflect t), bases is_base_of is_class reflect t, values reflect t, value_names reflect t,
   value_descriptions reflect t).
Definition names := Some [sv "red"; sv "green"].
Definition descriptions := Some [sv "red color"; sv "green color"].
(** TEST_CASE "enum metadata": 206-275. *)
Example enum_metadata :
  about_enum 0 = (false, None, None, Ok None, Ok None, Ok None, Ok None) /\
  about_enum 1 = (true, Some (sv "Color1"), None, Ok None, Ok (Some []), Ok None, Ok None) /\
  about_enum 2 = (true, Some (sv "Color2"), Some (sv "color 2"), Ok None, Ok (Some [red 2; green 2]), Ok None, Ok None) /\
  about_enum 3 = (true, None, None, Ok None, Ok (Some [red 3; green 3]), Ok None, Ok None) /\
  about_enum 4 = (true, None, None, Ok None, Ok (Some [red 4; green 4]), Ok names, Ok None) /\
  about_enum 5 = (true, Some (sv "Color5"), Some (sv "color 5"), Ok None, Ok (Some [red 5; green 5]), Ok names, Ok descriptions) /\
  about_enum 6 = (true, Some (sv "Color6"), Some (sv "color 6"), Ok None, Ok (Some [red 6; green 6]), Ok names, Ok descriptions) /\
  about_enum 7 = (true, None, None, Ok None, Ok (Some [red 7; green 7]), Ok names, Ok descriptions).
Proof. repeat split; vmr. Qed.
Example enum_indices :
  find_value_index reflect 4 0 = Ok 0%Z /\ find_value_index reflect 4 1 = Ok 1%Z /\
  search_value_index reflect 4 42 = Ok (-1)%Z /\ find_value_index reflect 4 42 = Contract.
Proof. repeat split; vmr. Qed.

(** Everything about a class: name, description, bases, exclusive members, their names and descriptions. *)
Definition about (t : nat) :=
  (is_available (reflect t), name (reflect t), description (reflect t), bases is_base_of is_class reflect t, exclusive_members is_class reflect t,
   exclusive_member_names is_class reflect t, exclusive_member_descriptions is_class reflect t).
Definition coo (t : nat) := Some [mi t; mj t; mv t].
Definition coo_names := Some [sv "i"; sv "j"; sv "v"].
Definition coo_descriptions := Some [sv "row index"; sv "column index"; sv "element"].
(** TEST_CASE "struct metadata": 277-332. *)
Example struct_metadata :
  about COO0 = (false, None, None, Ok None, Ok None, Ok None, Ok None) /\
  values reflect COO0 = Ok None /\ value_names reflect COO0 = Ok None /\ value_descriptions reflect COO0 = Ok None /\
  about COO1 = (true, None, None, Ok (Some []), Ok (coo COO1), Ok None, Ok None) /\
  about COO2 = (true, Some (sv "COO2"), Some (sv "COO 2"), Ok (Some []), Ok (coo COO2), Ok None, Ok None) /\
  about COO3 = (true, None, None, Ok (Some []), Ok (coo COO3), Ok coo_names, Ok coo_descriptions) /\
  about COO4 = (true, Some (sv "COO4"), Some (sv "COO 4"), Ok (Some []), Ok (coo COO4), Ok coo_names, Ok coo_descriptions).
Proof. repeat split; vmr. Qed.
Definition bases_ := bases is_base_of is_class reflect.
Definition exclusive_members_ := exclusive_members is_class reflect.
Definition members_ := members is_base_of is_class reflect 3.
Definition member_names_ := member_names is_base_of is_class reflect.
Example derived_metadata :
  bases_ SubCOO0a = Ok (Some [MBase COO4]) /\ bases_ SubCOO0b = Ok (Some [MBase COO4]) /\
  bases_ SubCOO1 = Ok (Some [MBase COO4]) /\ exclusive_members_ SubCOO1 = Ok (Some [mv2 SubCOO1]) /\
  members_ SubCOO1 = Ok (Some [mi COO4; mj COO4; mv COO4; mv2 SubCOO1]) /\ member_names_ SubCOO1 = Ok None /\
  bases_ SubCOO2 = Ok (Some [MBase COO4]) /\ exclusive_members_ SubCOO2 = Ok (Some [mv2 SubCOO2]) /\
  exclusive_member_names is_class reflect SubCOO2 = Ok (Some [sv "v2"]) /\
  members_ SubCOO2 = Ok (Some [mi COO4; mj COO4; mv COO4; mv2 SubCOO2]) /\ member_names_ SubCOO2 = Ok (Some [sv "i"; sv "j"; sv "v"; sv "v2"]).
Proof. repeat split; vmr. Qed.

(** SECTION "tie_members()": 335-405. *)
Definition tie := tie_members is_base_of is_class reflect 3.
Definition tie_by_name := tie_members_by_name is_base_of is_class reflect 3.
Local Open Scope Z_scope.
(** An object of class [t] with these values. *)
Definition obj (i j v v2 : Z) : object := fun m =>
  match m with MMember _ _ 0 => i | MMember _ _ 1 => j | MMember _ _ 2 => v | MMember _ _ _ => v2 | _ => 0 end.
Definition read (t : nat) (x : object) : outcome (list Z) := do l <- tie t; Ok (read_tie l x).
Definition assign (t : nat) (vs : outcome (list Z)) (x : object) : outcome object := do l <- tie t; do v <- vs; assign_tie l v x.
(** coo1, coo2. *)
Example tie_coo :
  read COO1 (obj 4 5 6 0) = Ok [4; 5; 6] /\
  (exists coo1, assign COO1 (Ok [1; 2; 3]) (obj 4 5 6 0) = Ok coo1 /\ (coo1 (mi COO1), coo1 (mj COO1), coo1 (mv COO1)) = (1, 2, 3) /\
   exists coo2, assign COO2 (read COO1 coo1) (obj 7 7 7 7) = Ok coo2 /\ read COO2 coo2 = read COO1 coo1).
Proof.
  split; [vmr|]. eexists. split; [cbv -[Z.add]; reflexivity|]. split; [vmr|]. eexists. split; [cbv -[Z.add]; reflexivity|]. vmr.
Qed.
(** sc1, sc2. *)
Definition sc1 := obj 1 2 3 4.
Example tie_derived :
  read SubCOO1 sc1 = Ok [1; 2; 3; 4] /\ read SubCOO2 (obj 5 6 7 8) = Ok [5; 6; 7; 8] /\
  (exists sc2, assign SubCOO2 (read SubCOO1 sc1) (obj 5 6 7 8) = Ok sc2 /\ read SubCOO2 sc2 = read SubCOO1 sc1 /\
   forall sc2', assign_tie [mv COO4] [7] sc2 = Ok sc2' -> read SubCOO2 sc2' <> read SubCOO1 sc1).
Proof.
  split; [vmr|]. split; [vmr|]. eexists. split; [cbv -[Z.add]; reflexivity|]. split; [vmr|]. intros sc2' H. injection H as <-. vm_compute. discriminate.
Qed.
(** alsc1a, alsc1b, alc1a, alc1b: members with the same names. *)
Definition sc2 := obj 1 2 3 8.
Example by_name :
  map (fun n => find_member_by_name is_base_of is_class reflect 3 AltLayoutSubCOO1 (lit n)) ["i"; "j"; "v"; "v2"]%string =
    [Ok (mi AltLayoutSubCOO1); Ok (mj AltLayoutSubCOO1); Ok (mv AltLayoutSubCOO1); Ok (mv2 AltLayoutSubCOO1)] /\
  map (fun n => search_member_by_name is_base_of is_class reflect 3 AltLayoutCOO1 (lit n)) ["i"; "j"; "v"; "v2"]%string =
    [Ok (Some (mi AltLayoutCOO1)); Ok (Some (mj AltLayoutCOO1)); Ok (Some (mv AltLayoutCOO1)); Ok None].
Proof. split; vmr. Qed.
Definition copy_by_name (dst src : nat) (ns : list string) (y x : object) : outcome object :=
  do ld <- tie_by_name dst (map lit ns); do ls <- tie_by_name src (map lit ns); assign_tie ld (read_tie ls y) x.
Example tie_names :
  (exists alsc1b, copy_by_name AltLayoutSubCOO1 SubCOO2 ["i"; "j"; "v"; "v2"]%string sc2 (obj 0 0 0 0) = Ok alsc1b /\
   map alsc1b [mi AltLayoutSubCOO1; mj AltLayoutSubCOO1; mv AltLayoutSubCOO1; mv2 AltLayoutSubCOO1] = [1; 2; 3; 8]) /\
  (exists alc1b, copy_by_name AltLayoutCOO1 SubCOO2 ["i"; "j"; "v"]%string sc2 (obj 0 0 0 0) = Ok alc1b /\
   map alc1b [mi AltLayoutCOO1; mj AltLayoutCOO1; mv AltLayoutCOO1] = [1; 2; 3]).
Proof. split; (eexists; split; [cbv -[Z.add]; reflexivity|vmr]). Qed.
