(** * The operations treat all elements alike *)
From Verif Require Import Py Tensor Parsing Recipe Ops Backends SpecGrammar SpecPattern Api Packing SpecElements ElementFacts Instances.

(** ** C53: calls with tensors that are related element by element give tensors that are
    related element by element, or raise the same exception.  This is true for every
    relation, so for every dtype and whatever the elements are *)
Theorem C53_reduce : forall {A B} (R : A -> B -> Prop) (r : runtime A) (r' : runtime B) red red' x x' pattern sizes,
  runtimes_alike r r' -> reductions_alike R r r' red red' -> alike_input R x x' ->
  both (alike R) (reduce r x pattern red sizes) (reduce r' x' pattern red' sizes).
Proof. exact (fun A B R r r' red red' x x' p s H Hr => api_reduce_alike R r r' H red red' Hr x x' p s). Qed.
Print Assumptions C53_reduce.

Theorem C53_array_api : forall {A B} (R : A -> B -> Prop) (r : runtime A) (r' : runtime B) red red' x x' pattern sizes,
  runtimes_alike r r' -> reductions_alike R r r' red red' -> alike_input R x x' ->
  both (alike R) (xp_reduce_ r x pattern red sizes) (xp_reduce_ r' x' pattern red' sizes).
Proof. exact (fun A B R r r' red red' x x' p s H Hr => aa_reduce_alike R r r' H red red' Hr x x' p s). Qed.
Print Assumptions C53_array_api.

Theorem C53_pack : forall {A B} (R : A -> B -> Prop) (r : runtime A) (r' : runtime B) ts ts' pattern,
  runtimes_alike r r' -> Forall2 (alike R) ts ts' ->
  both (fun p p' => alike R (fst p) (fst p') /\ snd p = snd p') (pack r ts pattern) (pack r' ts' pattern) /\
  both (fun p p' => alike R (fst p) (fst p') /\ snd p = snd p') (xp_pack r ts pattern) (xp_pack r' ts' pattern).
Proof. exact (fun A B R r r' ts ts' p H F => conj (pack_alike R r r' H ts ts' p F) (xp_pack_alike R r r' H ts ts' p F)). Qed.
Print Assumptions C53_pack.

Theorem C53_unpack : forall {A B} (R : A -> B -> Prop) (r : runtime A) (r' : runtime B) t t' packed_shapes pattern,
  runtimes_alike r r' -> alike R t t' ->
  both (Forall2 (alike R)) (unpack r t packed_shapes pattern) (unpack r' t' packed_shapes pattern) /\
  both (Forall2 (alike R)) (xp_unpack r t packed_shapes pattern) (xp_unpack r' t' packed_shapes pattern).
Proof. exact (fun A B R r r' t t' s p H F => conj (unpack_alike R r r' H t t' s p F) (xp_unpack_alike R r r' H t t' s p F)). Qed.
Print Assumptions C53_unpack.

(** A function of one element can be applied before or after: a cast, say *)
Theorem C53_map : forall {A B} (f : A -> B) (r : runtime A) (r' : runtime B) x pattern sizes,
  runtimes_alike r r' ->
  rearrange r' (input_map f x) pattern sizes = r_map (t_map f) (rearrange r x pattern sizes) /\
  repeat_ r' (input_map f x) pattern sizes = r_map (t_map f) (repeat_ r x pattern sizes) /\
  xp_rearrange r' (input_map f x) pattern sizes = r_map (t_map f) (xp_rearrange r x pattern sizes) /\
  xp_repeat r' (input_map f x) pattern sizes = r_map (t_map f) (xp_repeat r x pattern sizes).
Proof. exact @moves_map. Qed.
Print Assumptions C53_map.

Theorem C53_map_packed : forall {A B} (f : A -> B) (r : runtime A) (r' : runtime B) ts t packed_shapes pattern,
  runtimes_alike r r' ->
  pack r' (map (t_map f) ts) pattern = r_map (fun p => (t_map f (fst p), snd p)) (pack r ts pattern) /\
  unpack r' (t_map f t) packed_shapes pattern = r_map (map (t_map f)) (unpack r t packed_shapes pattern).
Proof. exact (fun A B f r r' ts t s p H => conj (pack_map f r r' H ts p) (unpack_map f r r' H t s p)). Qed.
Print Assumptions C53_map_packed.

(** ... in [reduce] too, if reducing [f v] for every [v] gives [f] of what the [v] are
    reduced to, with the same reduction or another that the frameworks treat alike *)
Theorem C53_map_reduced : forall {A B} (f : A -> B) (r : runtime A) (r' : runtime B) s s' x pattern sizes,
  runtimes_alike r r' -> same_code s s' ->
  (s = lit "mean" -> forall t, rt_isf r' (t_map f t) = rt_isf r t) ->
  red_maps f (rt_red r s) (rt_red r' s') ->
  reduce r' (input_map f x) pattern (RStr s') sizes = r_map (t_map f) (reduce r x pattern (RStr s) sizes) /\
  xp_reduce_ r' (input_map f x) pattern (RStr s') sizes = r_map (t_map f) (xp_reduce_ r x pattern (RStr s) sizes).
Proof.
  exact (fun A B f r r' s s' x p z H C M F => conj (reduce_map f r r' H _ _ x p z (red_maps_alike f r r' s s' C M F))
                                                   (xp_reduce_map f r r' H _ _ x p z (red_maps_alike f r r' s s' C M F))).
Qed.
Print Assumptions C53_map_reduced.

(** The same with a function of two elements: rearranging a sum is summing what is
    rearranged *)
Theorem C53_zip : forall {A B C} (f : A -> B -> C) (r : runtime A) (r' : runtime B) (r'' : runtime C) x y pattern sizes,
  runtimes_alike r r' -> runtimes_alike r r'' -> same_shape x y ->
  rearrange r'' (One (t_zip f x y)) pattern sizes = r_zip (t_zip f) (rearrange r (One x) pattern sizes) (rearrange r' (One y) pattern sizes) /\
  repeat_ r'' (One (t_zip f x y)) pattern sizes = r_zip (t_zip f) (repeat_ r (One x) pattern sizes) (repeat_ r' (One y) pattern sizes) /\
  xp_rearrange r'' (One (t_zip f x y)) pattern sizes = r_zip (t_zip f) (xp_rearrange r (One x) pattern sizes) (xp_rearrange r' (One y) pattern sizes) /\
  xp_repeat r'' (One (t_zip f x y)) pattern sizes = r_zip (t_zip f) (xp_repeat r (One x) pattern sizes) (xp_repeat r' (One y) pattern sizes).
Proof. exact @moves_zip. Qed.
Print Assumptions C53_zip.

Theorem C53_zip_reduced : forall {A B C} (f : A -> B -> C) (r : runtime A) (r' : runtime B) (r'' : runtime C) s x y pattern sizes,
  runtimes_alike r r' -> runtimes_alike r r'' -> same_shape x y ->
  red_zips f (rt_red r s) (rt_red r' s) (rt_red r'' s) ->
  float_if_mean r s -> float_if_mean r' s -> float_if_mean r'' s ->
  reduce r'' (One (t_zip f x y)) pattern (RStr s) sizes =
  r_zip (t_zip f) (reduce r (One x) pattern (RStr s) sizes) (reduce r' (One y) pattern (RStr s) sizes) /\
  xp_reduce_ r'' (One (t_zip f x y)) pattern (RStr s) sizes =
  r_zip (t_zip f) (xp_reduce_ r (One x) pattern (RStr s) sizes) (xp_reduce_ r' (One y) pattern (RStr s) sizes).
Proof.
  exact (fun A B C f r r' r'' s x y p z H H' S Z F F' F'' =>
    conj (reduce_zip f r r' r'' s (fun _ => Z) (fun E => conj (F E) (conj (F' E) (F'' E))) H H' x y p z S)
         (xp_reduce_zip f r r' r'' s (fun _ => Z) (fun E => conj (F E) (conj (F' E) (F'' E))) H H' x y p z S)).
Qed.
Print Assumptions C53_zip_reduced.

(** ** Cases *)

(** the largest of the opposites is the opposite of the smallest, for all tensors, patterns,
    frameworks; on one tensor these are these numbers *)
Lemma opposites : red_maps Z.opp (z_red (lit "min")) (z_red (lit "max")).
Proof.
  intros [|v vs]; [reflexivity|]. cbn. f_equal. induction vs as [|w vs IH]; [reflexivity|]. cbn. rewrite IH. lia.
Qed.
Example C53_opposites : forall f x pattern sizes,
  reduce (runtime_for f) (input_map Z.opp x) pattern (RStr (lit "max")) sizes =
  r_map (t_map Z.opp) (reduce (runtime_for f) x pattern (RStr (lit "min")) sizes).
Proof.
  intros f x pattern sizes.
  apply (C53_map_reduced Z.opp (runtime_for f) (runtime_for f) (lit "min") (lit "max") x pattern sizes).
  - split; reflexivity.
  - right. left. cbn. tauto.
  - discriminate.
  - exact opposites.
Qed.
Example C53_opposites_numbers :
  reduce torch_like (input_map Z.opp (One (iota [2; 3]))) (lit "a b -> b") (RStr (lit "max")) [] = Ok (mkT [3] [0; -1; -2]%Z) /\
  reduce torch_like (One (iota [2; 3])) (lit "a b -> b") (RStr (lit "min")) [] = Ok (mkT [3] [0; 1; 2]%Z).
Proof. split; reflexivity. Qed.

(** summing is linear *)
Lemma sums : red_zips Z.add (z_red (lit "sum")) (z_red (lit "sum")) (z_red (lit "sum")).
Proof.
  intros vs. cbn. induction vs as [|v vs IH]; intros [|w ws] E; try discriminate; [reflexivity|].
  cbn. injection E as E. specialize (IH ws E). injection IH as IH. rewrite IH. f_equal. lia.
Qed.
Example C53_sums : forall f x y pattern sizes, same_shape x y ->
  reduce (runtime_for f) (One (t_zip Z.add x y)) pattern (RStr (lit "sum")) sizes =
  r_zip (t_zip Z.add) (reduce (runtime_for f) (One x) pattern (RStr (lit "sum")) sizes) (reduce (runtime_for f) (One y) pattern (RStr (lit "sum")) sizes).
Proof.
  intros f x y pattern sizes S.
  apply (C53_zip_reduced Z.add (runtime_for f) (runtime_for f) (runtime_for f) (lit "sum") x y pattern sizes);
    try exact S; try (split; reflexivity); try exact sums; discriminate.
Qed.
Example C53_sums_numbers :
  reduce numpy_like (One (t_zip Z.add (iota [2; 3]) (mkT [2; 3] [1; 1; 1; 2; 2; 2]%Z))) (lit "a b -> a") (RStr (lit "sum")) [] = Ok (mkT [2] [6; 18]%Z).
Proof. reflexivity. Qed.

(** a cast to booleans, and a call that fails *)
Definition bool_runtime : runtime bool :=
  mkR bool ascii_unicode forward Numpy true (fun _ _ => Err BackendError) (fun _ => false) (Nat.eqb 1).
Example C53_cast : forall x pattern sizes,
  rearrange bool_runtime (input_map Z.even x) pattern sizes = r_map (t_map Z.even) (rearrange numpy_like x pattern sizes).
Proof. intros. apply (C53_map Z.even numpy_like bool_runtime). split; reflexivity. Qed.
Example C53_cast_numbers :
  rearrange bool_runtime (input_map Z.even (One (iota [2; 3]))) (lit "a b -> b a") [] = Ok (mkT [3; 2] [true; false; false; true; true; false]) /\
  rearrange bool_runtime (input_map Z.even (One (iota [2; 3]))) (lit "(a c) b -> b a c") [(lit "c", 3%Z)] = Err EinopsError.
Proof. split; reflexivity. Qed.

(** [mean] looks at the dtype: without that hypothesis the calls differ *)
Definition integer_runtime : runtime Z := mkR Z ascii_unicode forward Numpy true z_red (fun _ => false) Z.of_nat.
Example C53_mean :
  runtimes_alike numpy_like integer_runtime /\ red_maps (fun v : Z => v) (rt_red numpy_like (lit "mean")) (rt_red integer_runtime (lit "mean")) /\
  reduce numpy_like (One (iota [3])) (lit "a -> ") (RStr (lit "mean")) [] = Ok (mkT [] [1%Z]) /\
  reduce integer_runtime (input_map (fun v => v) (One (iota [3]))) (lit "a -> ") (RStr (lit "mean")) [] = Err NotImplementedError.
Proof.
  split; [split; reflexivity|]. split; [|split; reflexivity]. intros vs. rewrite map_id. destruct (rt_red numpy_like _ vs) eqn:E; cbn; exact E.
Qed.
