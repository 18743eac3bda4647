(** * einops/tests/test_einsum.py and the parts of test_layers.py about EinMix *)
From Verif Require Import Py Tensor SpecEinsum Parsing Recipe Ops Backends Api Einsum Layers EinMix Flax Instances TestBase EinsumFacts4 MixFacts9.
From Coq Require Import String.

Definition lib : pystr -> list (tensor Z) -> result (tensor Z) := ref_einsum Z.add Z.mul 0%Z 1%Z.
Definition add_bias : tensor Z -> tensor Z -> result (tensor Z) := ref_iadd Z.add 0%Z.
Notation mix p w b sizes := (@EinMix (tensor Z) ascii_unicode (fun _ => forward) (fun _ => backward) (lit p) (lit w) b sizes).

(** test_einsum.py:18-45, 167-178: the shapes of outputs, in smaller sizes *)
Definition layer_shape (M : result (einmix (tensor Z))) (b : bool) (in_shape out_shape : list nat) : bool :=
  forallb (fun f => match M with
    | Ok M => has_shape (call_einmix (runtime_for f) lib add_bias M (iota (map Z.to_nat (em_weight M)))
                           (option_map (fun s => iota (map Z.to_nat s)) (em_bias M)) (iota in_shape)) out_shape
              && Bool.eqb b (match em_bias M with Some _ => true | None => false end)
    | Err _ => false end) [Tensorflow; Torch; Oneflow; Paddle].
Notation "k =: v" := (lit k, v%Z) (at level 60).
Definition test_layer : Prop :=
  layer_shape (mix "b c_in h w -> w c_out h b" "c_in c_out" None ["c_out" =: 3; "c_in" =: 4]) false [2; 4; 3; 1] [1; 3; 3; 2] = true /\
  layer_shape (mix "b c_in h w -> w c_out h b" "c_in c_out" (Some (lit "c_out")) ["c_out" =: 3; "c_in" =: 4]) true [2; 4; 3; 1] [1; 3; 3; 2] = true /\
  layer_shape (mix "b c_in h w -> w c_in h b" "" None ["c_in" =: 4]) false [2; 4; 3; 1] [1; 4; 3; 2] = true /\
  layer_shape (mix "b c_in h w -> b c_out" "c_in h w c_out" None ["c_in" =: 2; "h" =: 3; "w" =: 1; "c_out" =: 5]) false [2; 2; 3; 1] [2; 5] = true /\
  layer_shape (mix "b t head c_in -> b t head c_out" "head c_in c_out" None ["head" =: 2; "c_in" =: 3; "c_out" =: 4]) false [2; 1; 2; 3] [2; 1; 2; 4] = true.
Succeed Definition holds : test_layer := ltac:(vm_compute; repeat split).

(** test_einsum.py:50-164, 194-226: compact patterns and shapes of results *)
Definition einsum (ts : list (tensor Z)) (p : pystr) : result (tensor Z) := einsum_with ascii_unicode lib (map inl ts ++ [inr p]).
Definition functional_cases : list (pystr * pystr * list (list nat) * list nat) :=
  [(lit "b c h w, b w -> b h", lit "abcd,ad->ac", [[2; 3; 4; 5]; [2; 5]], [2; 4]);
   (lit "b c h w, b w, b c -> b h", lit "abcd,ad,ab->ac", [[2; 3; 4; 5]; [2; 5]; [2; 3]], [2; 4]);
   (lit "... one two three, three four five -> ... two five", lit "...abc,cde->...be", [[2; 1; 2; 3; 2]; [2; 2; 3]], [2; 1; 3; 3]);
   (lit "one two three ..., three four five -> two five ...", lit "abc...,cde->be...", [[2; 3; 2; 2; 1]; [2; 2; 3]], [3; 3; 2; 1]);
   (lit "... one two three, ... three four five -> ... two five", lit "...abc,...cde->...be", [[2; 1; 2; 3; 2]; [2; 1; 2; 2; 3]], [2; 1; 3; 3]);
   (lit "first_tensor second_tensor -> first_tensor", lit "ab->a", [[5; 4]], [5]);
   (lit "i i -> ", lit "aa->", [[5; 5]], []);
   (lit " one  two  ,  three four->two  four  ", lit "ab,cd->bd", [[2; 3]; [4; 5]], [3; 5]);
   (lit "i middle i -> middle", lit "aba->b", [[3; 4; 3]], [4]);
   (lit "i ... i -> ...", lit "a...a->...", [[3; 3; 2; 1; 4; 3]], [3; 2; 1; 4]);
   (lit "i ... i -> i ...", lit "a...a->a...", [[3; 3; 2; 1; 4; 3]], [3; 3; 2; 1; 4]);
   (lit "one one one -> one", lit "aaa->a", [[5; 5; 5]], [5]);
   (lit "i j k -> j i k", lit "abc->bac", [[1; 2; 3]], [2; 1; 3]);
   (lit "... -> ...", lit "...->...", [[5; 4; 3; 2; 1]], [5; 4; 3; 2; 1]);
   (lit "..., ..., ... -> ...", lit "...,...,...->...", [[3; 2]; [3; 2]; [3; 2]], [3; 2]);
   (lit "index ->", lit "a->", [[10]], [])].
Definition test_functional : Prop :=
  forallb (fun '(p, c, shapes, out) => match compactify ascii_unicode p with Ok c' => str_eqb c c' | Err _ => false end) functional_cases = true /\
  forallb (fun '(p, c, shapes, out) => has_shape (einsum (map iota shapes) p) out && same (einsum (map iota shapes) p) (lib c (map iota shapes))) functional_cases = true.
Succeed Definition holds : test_functional := ltac:(vm_compute; repeat split).
(** the trace, and the diagonal *)
Definition test_functional_values : Prop := einsum [iota [3; 3]] (lit "i i -> ") = Ok (mkT [] [12%Z]) /\ einsum [iota [2; 2; 2]] (lit "one one one -> one") = Ok (mkT [2] [0; 7]%Z).
Succeed Definition holds : test_functional_values := ltac:(vm_compute; repeat split).

(** test_einsum.py:261-352 *)
Definition no_tensors : list (tensor Z + pystr) -> result (tensor Z) := einsum_with ascii_unicode lib.
Definition test_functional_errors : Prop :=
  raises_with NotImplementedError (einsum [iota [5; 1]] (lit "i () -> i")) = true /\
  raises_with NotImplementedError (einsum [iota [5; 1]] (lit "a b -> (a b)")) = true /\
  raises_with NotImplementedError (einsum [iota [10; 1]] (lit "(a b) -> a b")) = true /\
  raises_with NotImplementedError (einsum [iota [5; 1]] (lit "i 2 -> i")) = true /\
  raises_with EinopsError (einsum [iota [5; 1]] (lit "i 2j -> i")) = true /\
  raises_with ValueError (einsum [iota [5; 3; 2]] (lit "i j k")) = true /\
  raises_with RuntimeError (einsum [iota [1]] (str_join (lit " ") (map (fun c => [c]) ascii_letters) ++ lit " extra ->")) = true /\
  raises_with EinopsError (einsum [iota [5; 1]] (lit "i j -> k")) = true /\
  raises_with ValueError (no_tensors [inr (lit "i j k -> i"); inl (iota [5; 4; 3])]) = true /\
  raises_with ValueError (no_tensors [inr (lit "i j k -> i")]) = true /\
  raises_with ValueError (no_tensors [inl (iota [5; 1])]) = true.
Succeed Definition holds : test_functional_errors := ltac:(vm_compute; repeat split).

(** test_layers.py:348-435 *)
Definition decomposed (M : result (einmix (tensor Z))) :=
  match M with
  | Ok M => Some (option_map (fun L => (ly_pattern L, ly_sizes L)) (em_pre M), option_map (fun L => ly_pattern L) (em_post M), em_einsum M, em_weight M, em_bias M)
  | Err _ => None
  end.
Definition test_einmix_decomposition : Prop :=
  decomposed (mix "a b c d e -> e d c b a" "d a b" None ["d" =: 2; "a" =: 3; "b" =: 5]) = Some (None, None, lit "abcde,dab->edcba", [2; 3; 5]%Z, None) /\
  decomposed (mix "a b c d e -> e d c b a" "d a b" (Some (lit "a b c d e")) ["a" =: 1; "b" =: 2; "c" =: 3; "d" =: 4; "e" =: 5]) = Some (None, None, lit "abcde,dab->edcba", [4; 1; 2]%Z, Some [5; 4; 3; 2; 1]%Z) /\
  decomposed (mix "... -> ..." "" (Some (lit "")) []) = Some (None, None, lit "...,->...", [], Some []) /\
  decomposed (mix "b a ...  -> b c ..." "b a c" None ["a" =: 1; "b" =: 2; "c" =: 3]) = Some (None, None, lit "ba...,bac->bc...", [2; 1; 3]%Z, None) /\
  decomposed (mix "(b a) ... -> b c (...)" "b a c" None ["a" =: 1; "b" =: 2; "c" =: 3]) =
    Some (Some (lit "(b a) ... -> b a ...", ["a" =: 1; "b" =: 2]), Some (lit "b c ... -> b c (...)"), lit "ba...,bac->bc...", [2; 1; 3]%Z, None) /\
  decomposed (mix "b ... (a c) -> b ... (a d)" "c d" (Some (lit "a d")) ["a" =: 1; "c" =: 3; "d" =: 4]) =
    Some (Some (lit "b ... (a c) -> b ... a c", ["a" =: 1; "c" =: 3]), Some (lit "b ... a d -> b ... (a d)"), lit "b...ac,cd->b...ad", [3; 4]%Z, Some [1; 1; 4]%Z) /\
  decomposed (mix "a ... (b c) -> a (... d b)" "c d b" (Some (lit "d b")) ["b" =: 2; "c" =: 3; "d" =: 4]) =
    Some (Some (lit "a ... (b c) -> a ... b c", ["b" =: 2; "c" =: 3]), Some (lit "a ... d b -> a (... d b)"), lit "a...bc,cdb->a...db", [3; 4; 2]%Z, Some [1; 4; 2]%Z).
Succeed Definition holds : test_einmix_decomposition := ltac:(vm_compute; repeat split).

(** test_layers.py:438-468 *)
Definition test_einmix_restrictions : Prop :=
  raises_with EinopsError (mix "a b c d e -> e d c b a" "d a b" None ["d" =: 2; "a" =: 3]) = true /\
  raises_with EinopsError (mix "a b c d e -> e d c b a" "w a b" None ["d" =: 2; "a" =: 3; "b" =: 1]) = true /\
  raises_with EinopsError (mix "(...) a -> ... a" "a" None ["a" =: 1]) = true /\
  raises_with EinopsError (mix "(...) a -> a ..." "a" (Some (lit "a")) ["a" =: 1]) = true.
Succeed Definition holds : test_einmix_restrictions := ltac:(vm_compute; repeat split).

(** test_layers.py:301-345: the network of the flax test *)
Definition jax_z : runtime Z := runtime_for Jax.
Definition network (w b x : tensor Z) : result (tensor Z) :=
  let* x := flax_einmix jax_z (fun _ => forward) (fun _ => backward) lib add_bias (lit "b (h h2) (w w2) c -> b h w c_out") (lit "h2 w2 c c_out") (Some (lit "c_out"))
              ["h2" =: 2; "w2" =: 3; "c" =: 4; "c_out" =: 5] w (Some b) x in
  let* x := flax_rearrange jax_z (fun _ => forward) (lit "b h w c -> b (w h c)") ["c" =: 5] x in
  flax_reduce jax_z (fun _ => forward) (lit "b hwc -> b") (RStr (lit "mean")) ["hwc" =: 30] x.
Definition ones (s : list nat) : tensor Z := mkT s (repeat 1%Z (prodn s)).
Definition test_flax_layers : Prop := network (ones [2; 3; 4; 5]) (ones [1; 1; 1; 5]) (ones [2; 4; 9; 4]) = Ok (mkT [2] [25; 25]%Z).
Succeed Definition holds : test_flax_layers := ltac:(vm_compute; repeat split).
