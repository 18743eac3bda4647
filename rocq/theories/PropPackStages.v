(** * Packing and unpacking in stages *)
From Verif Require Import Py Tensor Parsing Recipe Ops Backends SpecGrammar SpecPattern Api Packing SpecPacking SpecPackStages PackFacts PackFacts5 PackStages UnpackStages PropPacking Instances.

(** ** C85: tensors in groups.  Packing each group and then the packed groups gives
    what packing all tensors gives; the shapes are those of all groups, one after the
    other.  In the second stage each shape is the one number of elements of the group. *)
Theorem C85_pack : forall (A : Type) (r : runtime A) (tss : list (list (tensor A))) (p : pystr) (x : tensor A) (ps : list (list Z)),
  runtime_ok r -> Forall (Forall wf) tss -> Forall (fun ts => ts <> []) tss ->
  (pack r (concat tss) p = Ok (x, ps) <->
   exists packed, mapM (fun ts => pack r ts p) tss = Ok packed /\ ps = concat (map snd packed) /\
     pack r (map fst packed) p = Ok (x, map (fun q => [Z.of_nat (list_sum (map (fun s => prodn (map Z.to_nat s)) (snd q)))]) packed)).
Proof. exact (fun A r tss p x ps Hr => packed_in_stages r Hr tss p x ps). Qed.
Print Assumptions C85_pack.

(** Unpacking into groups, and each of them into its tensors, gives what unpacking
    all at once gives (also the same errors).  At most one of the shapes has a -1; the
    others then do not ask for more than there is.  A group with a -1 is asked for as -1. *)
Theorem C85_unpack : forall (A : Type) (r : runtime A) (p : pystr) (before after : list pystr) (b a : list nat) (n : nat) (x : tensor A) (pss : list (list (list Z))),
  runtime_ok r -> pack_pattern (rt_unicode r) p before after ->
  length b = length before -> length a = length after -> prodn (b ++ a) <> 0 ->
  shp x = b ++ [n] ++ a -> wf x ->
  pss <> [] -> Forall (fun ps => ps <> []) pss -> (forall q, In q (concat pss) -> tame (rt_lib r) q) ->
  length (filter is_open (concat pss)) <= 1 -> no_overlap n (concat pss) ->
  unpack r x (concat pss) p =
    let* ys := unpack r x (map (fun ps => [group_length ps]) pss) p in
    let* tss := mapM (fun '(y, ps) => unpack r y ps p) (combine ys pss) in
    Ok (concat tss).
Proof. exact (fun A r p before after b a n x pss Hr Hp Lb La P => in_stages r Hr p before after b a Hp Lb La P n x pss). Qed.
Print Assumptions C85_unpack.

(** ** Cases *)
Example C85_pack_case :
  let t1 := iota [2; 3] in let t2 := iota [2; 2; 2; 3] in let t3 := iota [2; 1; 3] in
  let y := mkT [2; 5; 3] (flat_map (fun i => firstn 3 (skipn (3 * i) (dat t1)) ++ firstn 12 (skipn (12 * i) (dat t2))) [0; 1]) in
  Forall (Forall wf) [[t1; t2]; [t3]] /\
  pack numpy_like [t1; t2] ex_pattern = Ok (y, [[]; [2; 2]]%Z) /\ pack numpy_like [t3] ex_pattern = Ok (t3, [[1]]%Z) /\
  exists x, pack numpy_like [t1; t2; t3] ex_pattern = Ok (x, [[]; [2; 2]; [1]]%Z) /\ pack numpy_like [y; t3] ex_pattern = Ok (x, [[5]; [1]]%Z).
Proof.
  cbn zeta. split; [repeat constructor; apply iota_wf|]. split; [vm_compute; reflexivity|]. split; [vm_compute; reflexivity|].
  eexists. split; vm_compute; reflexivity.
Qed.
Example C85_unpack_case :
  let x := iota [2; 9; 3] in let pss := [[[]; [2; -1]]; [[2]; []]]%Z in
  pack_pattern (rt_unicode numpy_like) ex_pattern [lit "i"] [lit "k"] /\ shp x = [2] ++ [9] ++ [3] /\
  (forall q, In q (concat pss) -> tame (rt_lib numpy_like) q) /\ length (filter is_open (concat pss)) <= 1 /\ no_overlap 9 (concat pss) /\
  map (fun ps => [group_length ps]) pss = [[-1]; [3]]%Z /\
  exists y1 y2 t1 t2 t3 t4, unpack numpy_like x [[-1]; [3]]%Z ex_pattern = Ok [y1; y2] /\ shp y1 = [2; 6; 3] /\
    unpack numpy_like y1 [[]; [2; -1]]%Z ex_pattern = Err RuntimeError /\ unpack numpy_like x (concat pss) ex_pattern = Err RuntimeError /\
    unpack numpy_like y1 [[2]; [2; -1]]%Z ex_pattern = Ok [t1; t2] /\ unpack numpy_like y2 [[2]; []]%Z ex_pattern = Ok [t3; t4] /\
    unpack numpy_like x [[2]; [2; -1]; [2]; []]%Z ex_pattern = Ok [t1; t2; t3; t4].
Proof.
  cbn zeta. split; [exact ex_pattern_ok|]. split; [reflexivity|].
  split; [intros q H; right; intros d Hd; each H; subst q; each Hd; subst; lia|]. split; [vm_compute; lia|]. split; [intros _; vm_compute; lia|]. split; [reflexivity|].
  do 6 eexists. split; [vm_compute; reflexivity|]. split; [reflexivity|]. split; [vm_compute; reflexivity|]. split; [vm_compute; reflexivity|].
  split; [vm_compute; reflexivity|]. split; [vm_compute; reflexivity|]. vm_compute; reflexivity.
Qed.
(** [no_overlap] is needed: unpack accepts overlapping pieces (C25), but not in stages *)
Example C85_overlap_needed :
  exists ts, unpack numpy_like (iota [5]) [[3]; [-1]; [4]]%Z (lit "*") = Ok ts /\
  (let* ys := unpack numpy_like (iota [5]) [[-1]; [4]]%Z (lit "*") in mapM (fun '(y, ps) => unpack numpy_like y ps (lit "*")) (combine ys [[[3]; [-1]]; [[4]]]%Z)) = Err RuntimeError.
Proof. eexists. split; vm_compute; reflexivity. Qed.
