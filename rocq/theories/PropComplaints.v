(** * C65: error messages of pack, unpack, parse_shape and einsum *)
From Verif Require Import Py Tensor SpecGrammar SpecForms SpecEinsum SpecPattern SpecPacking Parsing Recipe Ops Backends Api Packing Einsum Texts Messages Complaints SpecComplaints ComplaintFacts ComplaintFacts2 ComplaintFacts3 Instances.

(** the functions with messages are those of the other theorems *)
Theorem C65_same_pack : forall (A : Type) (r : runtime A) ts pattern, plain_told (pack_said r ts pattern) = pack r ts pattern.
Proof. exact (fun A r ts p => pack_said_same r ts p). Qed.
Print Assumptions C65_same_pack.
Theorem C65_same_unpack : forall (A : Type) (r : runtime A) x ps pattern, plain_told (unpack_said r x ps pattern) = unpack r x ps pattern.
Proof. exact (fun A r x ps p => unpack_said_same r x ps p). Qed.
Print Assumptions C65_same_unpack.
Theorem C65_same_parse_shape : forall (U : unicode) shape pattern, plain_told (parse_shape_told U shape pattern) = parse_shape U shape pattern.
Proof. exact (fun U shape p => told_shape U shape p). Qed.
Print Assumptions C65_same_parse_shape.
Theorem C65_same_einsum : forall (T : Type) (U : unicode) (lib : pystr -> list T -> result T) args, unicode_ok U ->
  plain_told (einsum_told U lib args) = einsum_with U lib args.
Proof. exact (fun T U lib args HU => told_einsum U lib args HU). Qed.
Print Assumptions C65_same_einsum.

(** what the messages say is true *)
Theorem C65_pack : forall (A : Type) (r : runtime A) ts pattern c, runtime_ok r ->
  pack_said r ts pattern = Says c -> true_of_pack (rt_unicode r) pattern ts c.
Proof. exact (fun A r ts p c Hr H => pack_true r Hr ts p c H). Qed.
Print Assumptions C65_pack.
Theorem C65_unpack : forall (A : Type) (r : runtime A) x ps pattern c, runtime_ok r -> wf x ->
  unpack_said r x ps pattern = Says c -> true_of_unpack (rt_unicode r) pattern x ps c.
Proof. exact (fun A r x ps p c Hr Hw H => unpack_true r Hr x ps p c Hw H). Qed.
Print Assumptions C65_unpack.
(** the functions for the array API say the same *)
Theorem C65_array_api : forall (A : Type) (r : runtime A),
  (forall ts pattern, xp_pack_said r ts pattern = pack_said r ts pattern) /\
  (forall x ps pattern, xp_unpack_said r x ps pattern = unpack_said r x ps pattern).
Proof. exact (fun A r => conj (xp_pack_said_same r) (xp_unpack_said_same r)). Qed.
Print Assumptions C65_array_api.
Theorem C65_parse_shape : forall (U : unicode) shape pattern c, unicode_ok U ->
  parse_shape_told U shape pattern = Says c -> true_of_shape U pattern shape c.
Proof. exact (fun U shape p c HU H => shape_true U HU p shape c H). Qed.
Print Assumptions C65_parse_shape.
Theorem C65_einsum : forall (T : Type) (U : unicode) (lib : pystr -> list T -> result T) args c, unicode_ok U ->
  einsum_told U lib args = Says c ->
  match c with
  | FewArguments => length args < 2
  | LastNotText => exists ts x, ts <> [] /\ args = ts ++ [inl x]
  | _ => exists ts pattern, ts <> [] /\ args = ts ++ [inr pattern] /\ true_of_einsum U pattern c
  end.
Proof. exact (fun T U lib args c HU H => einsum_true U lib args c HU H). Qed.
Print Assumptions C65_einsum.

(** unpack says that it could not split an axis of 5 elements into 2 and the rest,
    because another axis has no elements *)
Theorem C65_split_refuted :
  unpack_said numpy_like (mkT [0; 5] []) [[2%Z]; [(-1)%Z]] (lit "i *") = Says (NoSplit 5) /\ divisible [[2%Z]; [(-1)%Z]] 5.
Proof.
  split; [vm_compute; reflexivity|]. exists [[2]; [3]]. split; [|reflexivity].
  constructor; [split; [reflexivity|left; split; [|reflexivity]]|].
  { intros d [<-|[]]. discriminate. }
  constructor; [|constructor]. split; [reflexivity|]. right. exists [], [], 3. split; [reflexivity|].
  split; [intros d []|]. split; [intros d []|]. split; [discriminate|reflexivity].
Qed.
Print Assumptions C65_split_refuted.

(** ** Examples *)
Definition tuple_text (s : list Z) : pystr :=
  lit "(" ++ str_join (lit ", ") (map str_of_int s) ++ match s with [_] => lit ",)" | _ => lit ")" end.
Definition words_of {A} (opname pattern shapes : pystr) (t : told A) : pystr :=
  match t with Says c => complaint_text opname pattern shapes tuple_text c | _ => [] end.
Example C65_case_pack :
  let p := lit "i j * k" in
  words_of (lit "pack") p [] (pack_said numpy_like [iota [2; 3; 5]; iota [2; 3]] p) =
  lit "packed tensor #1 (enumeration starts with 0) has shape (2, 3), while pattern i j * k assumes at least 3 axes".
Proof. vm_compute. reflexivity. Qed.
Example C65_case_unpack :
  let p := lit "i *" in
  words_of (lit "unpack") p (lit "[(2, 2), (2,)]") (unpack_said numpy_like (iota [2; 7]) [[2%Z; 2%Z]; [2%Z]] p) =
  lit "Error during unpack(..., " ++ [c_quotes] ++ p ++ [c_quotes] ++ lit "): could not split axis of size 7 into requested [(2, 2), (2,)]" /\
  true_of_unpack ascii_unicode p (iota [2; 7]) [[2%Z; 2%Z]; [2%Z]] (NoSplit 7).
Proof.
  split; [vm_compute; reflexivity|]. apply (C65_unpack Z numpy_like); [apply runtime_for_ok|reflexivity|vm_compute; reflexivity].
Qed.
Example C65_case_parse_shape :
  let p := lit "a 3 ()" in
  words_of [] p [] (parse_shape_told ascii_unicode [7; 3; 2]%Z p) = lit "Length of axis is not 1: a 3 () (7, 3, 2)".
Proof. vm_compute. reflexivity. Qed.
Example C65_case_einsum :
  let p := lit "a b, b c -> a d" in
  words_of [] p [] (compactify_told ascii_unicode p) = lit "Unknown axis d on right side of einsum a b, b c -> a d.".
Proof. vm_compute. reflexivity. Qed.
Example C65_case_einsum_said :
  einsum_told ascii_unicode (fun _ _ => Err RuntimeError) [inl tt; inr (lit "a (b c) -> a")] = Says Composed /\
  einsum_told ascii_unicode (fun _ _ => Err RuntimeError) [inl tt] = Says FewArguments /\
  einsum_told ascii_unicode (fun _ _ => Err RuntimeError) [inr (lit "a -> a"); inl tt] = Says LastNotText /\
  einsum_told ascii_unicode (fun _ _ => Err RuntimeError) [inl tt; inr (lit "a a b2x -> a _b")] = Says (InPattern (BadName (lit "_b") OuterUnderscore)).
Proof. vm_compute. repeat split. Qed.
