(** * pack and unpack in terms of rearrange *)
From Verif Require Import Py Tensor Parsing Recipe Ops Backends SpecGrammar SpecPattern SpecOps Api Packing SpecPacking SpecShape PackFacts PackLaws PackLaws2 Instances.

(** ** C48 *)

(** packing one tensor joins the axes under the star: pack([x], 'a * b') is
    rearrange(x, 'a ... b -> a (...) b'), but fails when a named axis is empty *)
Theorem C48_pack_one : forall (A : Type) (r : runtime A) (x y : tensor A) (p p' : pystr) (before after : list pystr),
  runtime_ok r -> wf x -> pack_pattern (rt_unicode r) p before after ->
  reads (rt_unicode r) p' (star_apart before after) (star_joined before after) ->
  ((exists ps, pack r [x] p = Ok (y, ps)) <->
   rearrange r (One x) p' [] = Ok y /\ prodn (named_dims before after (shp x)) <> 0).
Proof. exact (fun A r x y p p' before after Hok => pack_one_iff r Hok p p' before after x y). Qed.
Print Assumptions C48_pack_one.

(** packing tensors that have only the named axes stacks them:
    pack(ts, 'a * b') is rearrange(ts, 'i a b -> a i b') *)
Theorem C48_pack_stack : forall (A : Type) (r : runtime A) (ts : list (tensor A)) (y : tensor A) (p p' i : pystr) (before after : list pystr),
  runtime_ok r -> Forall wf ts -> pack_pattern (rt_unicode r) p before after ->
  reads (rt_unicode r) p' (axes_named (i :: before ++ after)) (axes_named (before ++ [i] ++ after)) ->
  (forall t, In t ts -> length (shp t) = length before + length after) ->
  (pack r ts p = Ok (y, map (fun _ => []) ts) <->
   rearrange r (Many ts) p' [] = Ok y /\ forall t, In t ts -> prodn (shp t) <> 0).
Proof. exact (fun A r ts y p p' i before after Hok => pack_stack_iff r Hok p p' i before after ts y). Qed.
Print Assumptions C48_pack_stack.

(** unpacking one piece splits the axis: unpack(x, [q], 'a * b') is
    rearrange(x, 'a (i j) b -> a i j b', i=.., j=..), where -1 means that no length is given *)
Theorem C48_unpack_one : forall (A : Type) (r : runtime A) (x t : tensor A) (p p' : pystr) (before names after : list pystr)
    (q : list Z) (b : list nat) (n : nat) (a : list nat),
  runtime_ok r -> pack_pattern (rt_unicode r) p before after ->
  reads (rt_unicode r) p' (star_named before names after) (axes_named (before ++ names ++ after)) ->
  Forall (axis_name (rt_unicode r)) names -> length q = length names ->
  length b = length before -> length a = length after ->
  wf x -> shp x = b ++ [n] ++ a -> prodn (b ++ a) <> 0 -> tame (rt_lib r) q -> no_reserved (given names q) ->
  (unpack r x [q] p = Ok [t] <-> rearrange r (One x) p' (given names q) = Ok t).
Proof.
  exact (fun A r x t p p' before names after q b n a Hok Hp Hr Hn Lq Lb La =>
    unpack_one_iff r Hok p p' before names after Hp Hr Hn q Lq b n a Lb La x t).
Qed.
Print Assumptions C48_unpack_one.

Example C48_case :
  let p := lit "i * k" in let before := [lit "i"] in let after := [lit "k"] in
  let x := iota [2; 2; 3; 2] in
  pack_pattern ascii_unicode p before after /\
  reads ascii_unicode (lit "i ... k -> i (...) k") (star_apart before after) (star_joined before after) /\
  (exists y, rearrange numpy_like (One x) (lit "i ... k -> i (...) k") [] = Ok y /\ pack numpy_like [x] p = Ok (y, [[2; 3]]%Z) /\
     named_dims before after (shp x) = [2; 2] /\
     reads ascii_unicode (lit "i (u v) k -> i u v k") (star_named before [lit "u"; lit "v"] after) (axes_named (before ++ [lit "u"; lit "v"] ++ after)) /\
     unpack numpy_like y [[-1; 3]]%Z p = Ok [x] /\ given [lit "u"; lit "v"] [-1; 3]%Z = [(lit "v", 3%Z)] /\
     rearrange numpy_like (One y) (lit "i (u v) k -> i u v k") [(lit "v", 3%Z)] = Ok x) /\
  reads ascii_unicode (lit "j i k -> i j k") (axes_named (lit "j" :: before ++ after)) (axes_named (before ++ [lit "j"] ++ after)) /\
  (exists y, rearrange numpy_like (Many [iota [2; 3]; iota [2; 3]]) (lit "j i k -> i j k") [] = Ok y /\
     pack numpy_like [iota [2; 3]; iota [2; 3]] p = Ok (y, [[]; []]) /\ shp y = [2; 2; 3]) /\
  (** where they differ: a named axis of length 0 *)
  pack numpy_like [iota [2; 5; 0]] p = Err BackendError /\
  (exists y, rearrange numpy_like (One (iota [2; 5; 0])) (lit "i ... k -> i (...) k") [] = Ok y).
Proof.
  cbv zeta.
  split; [split; [exact (words_complete ascii_unicode (lit "i * k"))|split; [solve_NoDup|repeat constructor; cbv; discriminate]]|].
  split; [solve_reads (lit "i ... k ") (lit " i (...) k")|].
  split.
  { eexists. split; [vm_compute; reflexivity|]. split; [vm_compute; reflexivity|]. split; [reflexivity|].
    split; [solve_reads (lit "i (u v) k ") (lit " i u v k")|]. split; [vm_compute; reflexivity|]. split; [reflexivity|]. vm_compute; reflexivity. }
  split; [solve_reads (lit "j i k ") (lit " i j k")|].
  split; [eexists; split; [vm_compute; reflexivity|]; split; [vm_compute; reflexivity|reflexivity]|].
  split; [vm_compute; reflexivity|]. eexists. vm_compute; reflexivity.
Qed.
