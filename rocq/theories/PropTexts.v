(** * C56: the text and the configuration of a layer describe it completely *)
From Verif Require Import Py Tensor SpecGrammar Parsing Recipe Ops Backends Api Layers EinMix Texts SpecTexts TextFacts Instances.

(** a text is at most one call *)
Theorem C56_unambiguous : forall (U : unicode) (t : pystr) (c c' : call_expr), unicode_ok U -> denotes U t c -> denotes U t c' -> c = c'.
Proof. exact (fun U t c c' HU => denotes_unique U HU t c c'). Qed.
Print Assumptions C56_unambiguous.

(** what a layer prints is the call that made it, and whatever call is read from
    it makes a layer that does the same *)
Theorem C56_rearrange : forall (A : Type) (U : unicode) (printable : N -> bool) (os os2 : nat -> orders) (class_name pattern : pystr) (sizes : list (pystr * Z))
    (L : layer (tensor A)),
  unicode_ok U -> prints_words U printable -> (forall n, orders_ok (os n)) -> (forall n, orders_ok (os2 n)) ->
  isidentifier U class_name = true -> NoDup (map fst sizes) -> Rearrange U os pattern sizes = Ok L ->
  denotes U (Rearrange_repr printable class_name L) (mkCall class_name [pattern] sizes) /\
  forall c, denotes U (Rearrange_repr printable class_name L) c ->
    ce_name c = class_name /\ exists p, ce_args c = [p] /\ exists L', Rearrange U os2 p (ce_kwargs c) = Ok L' /\
      forall r x, runtime_ok r -> rt_unicode r = U -> call_layer r L' x = call_layer r L x.
Proof. exact (fun A U printable os os2 cls pattern sizes L HU Hpr Ho Ho2 Hcls Hn => rearrange_again U HU printable Hpr os os2 Ho Ho2 cls Hcls sizes Hn pattern L). Qed.
Print Assumptions C56_rearrange.

Theorem C56_reduce : forall (A : Type) (U : unicode) (printable : N -> bool) (fun_repr : (tensor A -> list nat -> result (tensor A)) -> pystr) (os os2 : nat -> orders)
    (class_name pattern s : pystr) (sizes : list (pystr * Z)) (L : layer (tensor A)),
  unicode_ok U -> prints_words U printable -> (forall n, orders_ok (os n)) -> (forall n, orders_ok (os2 n)) ->
  isidentifier U class_name = true -> NoDup (map fst sizes) -> Reduce U os pattern (RStr s) sizes = Ok L ->
  denotes U (Reduce_repr printable fun_repr class_name L) (mkCall class_name [pattern; s] sizes) /\
  forall c, denotes U (Reduce_repr printable fun_repr class_name L) c ->
    ce_name c = class_name /\ exists p s', ce_args c = [p; s'] /\ exists L', Reduce U os2 p (RStr s') (ce_kwargs c) = Ok L' /\
      forall r x, runtime_ok r -> rt_unicode r = U -> call_layer r L' x = call_layer r L x.
Proof. exact (fun A U printable fr os os2 cls pattern s sizes L HU Hpr Ho Ho2 Hcls Hn => reduce_again U HU printable Hpr os os2 Ho Ho2 cls Hcls sizes Hn fr pattern s L). Qed.
Print Assumptions C56_reduce.

(** EinMix; a length for the ellipsis itself (accepted by EinMix under the name
    U+2026) would not be a keyword argument *)
Theorem C56_einmix : forall (A : Type) (U : unicode) (printable : N -> bool) (os os' os2 os2' : nat -> orders) (class_name pattern weight_text : pystr)
    (bias_text : option pystr) (sizes : list (pystr * Z)) (M : einmix (tensor A)),
  unicode_ok U -> prints_words U printable -> (forall n, orders_ok (os n)) -> (forall n, orders_ok (os' n)) -> (forall n, orders_ok (os2 n)) -> (forall n, orders_ok (os2' n)) ->
  isidentifier U class_name = true -> NoDup (map fst sizes) -> ~ In ell_name (map fst sizes) -> EinMix U os os' pattern weight_text bias_text sizes = Ok M ->
  denotes U (EinMix_repr printable class_name M) (mkCall class_name (pattern :: weight_text :: match bias_text with Some b => [b] | None => [] end) sizes) /\
  forall c, denotes U (EinMix_repr printable class_name M) c ->
    ce_name c = class_name /\ exists p w b, ce_args c = p :: w :: b /\ length b <= 1 /\
      exists M', EinMix U os2 os2' p w (hd_error b) (ce_kwargs c) = Ok M' /\
        em_pattern M' = em_pattern M /\ em_weight_text M' = em_weight_text M /\ em_bias_text M' = em_bias_text M /\ em_sizes M' = em_sizes M /\
        em_weight M' = em_weight M /\ em_bias M' = em_bias M /\ em_fan_in M' = em_fan_in M /\ em_einsum M' = em_einsum M /\
        forall r lib iadd w b x, runtime_ok r -> rt_unicode r = U -> call_einmix r lib iadd M' w b x = call_einmix r lib iadd M w b x.
Proof. exact (fun A U printable os os' os2 os2' cls pattern wt bt sizes M HU Hpr Ho Ho' Ho2 Ho2' Hcls Hn => einmix_again U HU printable Hpr os os' os2 os2' Ho Ho' Ho2 Ho2' cls Hcls sizes Hn pattern wt bt M). Qed.
Print Assumptions C56_einmix.

(** the configuration of EinMix (tensorflow) restores the layer *)
Theorem C56_einmix_config : forall (A : Type) (U : unicode) (os os' os2 os2' : nat -> orders) (pattern weight_text : pystr)
    (bias_text : option pystr) (sizes : list (pystr * Z)) (M : einmix (tensor A)),
  unicode_ok U -> (forall n, orders_ok (os n)) -> (forall n, orders_ok (os' n)) -> (forall n, orders_ok (os2 n)) -> (forall n, orders_ok (os2' n)) ->
  NoDup (map fst sizes) -> EinMix U os os' pattern weight_text bias_text sizes = Ok M ->
  exists M', EinMix_from_config U os2 os2' (EinMix_config M) = Ok M' /\
    em_pattern M' = em_pattern M /\ em_weight_text M' = em_weight_text M /\ em_bias_text M' = em_bias_text M /\ em_sizes M' = em_sizes M /\
    em_weight M' = em_weight M /\ em_bias M' = em_bias M /\ em_fan_in M' = em_fan_in M /\ em_einsum M' = em_einsum M /\
    forall r lib iadd w b x, runtime_ok r -> rt_unicode r = U -> call_einmix r lib iadd M' w b x = call_einmix r lib iadd M w b x.
Proof. exact (fun A U os os' os2 os2' pattern wt bt sizes M HU Ho Ho' Ho2 Ho2' Hn => einmix_config_again U HU os os' os2 os2' Ho Ho' Ho2 Ho2' sizes Hn pattern wt bt M). Qed.
Print Assumptions C56_einmix_config.

(** a configuration that does not mention a bias stands for a layer without one *)
Theorem C56_einmix_config_default : forall (T : Type) (U : unicode) (os os' : nat -> orders) (c : list (pystr * config_value T)),
  dict_get str_eqb (lit "bias_shape") c = None ->
  EinMix_from_config U os os' c = EinMix_from_config (T := T) U os os' ((lit "bias_shape", VNone) :: c).
Proof. exact @config_default_bias. Qed.
Print Assumptions C56_einmix_config_default.
Example C56_einmix_config_default_case :
  let c := [(lit "weight_shape", VStr (lit "c d")); (lit "d", VInt 2%Z); (lit "pattern", VStr (lit "b c -> b d")); (lit "c", VInt 3%Z)] in
  exists M : einmix (tensor Z), EinMix_from_config ascii_unicode (fun _ => forward) (fun _ => backward) c = Ok M /\
    em_pattern M = lit "b c -> b d" /\ em_bias M = None /\ em_weight M = [3; 2]%Z.
Proof. eexists. split; [vm_compute; reflexivity|]. repeat split; vm_compute; reflexivity. Qed.

(** cases: the texts of three layers *)
Definition ascii_printable (c : N) : bool := (c <? 127)%N || (c =? c_ell)%N || u_alnum ascii_unicode c.
Example C56_case_printable : prints_words ascii_unicode ascii_printable.
Proof. split; [reflexivity|]. intros c H. unfold ascii_printable. rewrite H. apply orb_true_r. Qed.
Example C56_case_rearrange : exists L : layer (tensor Z), Rearrange ascii_unicode (fun _ => forward) (lit "b (h h2) ... -> b ... h h2") [(lit "h2", 12%Z)] = Ok L /\
  Rearrange_repr ascii_printable (lit "Rearrange") L = lit "Rearrange('b (h h2) ... -> b ... h h2', h2=12)".
Proof. eexists. split; vm_compute; reflexivity. Qed.
Example C56_case_reduce : exists L : layer (tensor Z), Reduce ascii_unicode (fun _ => forward) (lit "b (h h2) -> b h") (RStr (lit "max")) [(lit "h2", 105%Z); (lit "b", (-3)%Z)] = Ok L /\
  Reduce_repr ascii_printable (fun _ => []) (lit "Reduce") L = lit "Reduce('b (h h2) -> b h', 'max', h2=105, b=-3)".
Proof. eexists. split; vm_compute; reflexivity. Qed.
Example C56_case_einmix : exists M : einmix (tensor Z), EinMix ascii_unicode (fun _ => forward) (fun _ => forward) (lit "b (c c1) -> b d") (lit "c d") (Some (lit "d")) [(lit "c", 2%Z); (lit "d", 40%Z)] = Ok M /\
  EinMix_repr ascii_printable (lit "EinMix") M = lit "EinMix('b (c c1) -> b d', 'c d', 'd', c=2, d=40)" /\
  exists M', EinMix_from_config ascii_unicode (fun _ => backward) (fun _ => backward) (EinMix_config M) = Ok M' /\ em_weight M' = [2%Z; 40%Z].
Proof. eexists. split; [vm_compute; reflexivity|]. split; [vm_compute; reflexivity|]. eexists. split; vm_compute; reflexivity. Qed.
(** texts with escapes and other quotes *)
Example C56_case_escapes : str_repr ascii_printable (lit "it's") = lit """it's""" /\ str_repr ascii_printable [97; 10; 39; 34; 300]%N = lit "'a\n\'""\u012c'".
Proof. split; reflexivity. Qed.
