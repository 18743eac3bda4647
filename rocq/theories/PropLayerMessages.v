(** * C66: error messages of layers *)
From Verif Require Import Py Tensor SpecGrammar SpecSem SpecPattern SpecEinMix Parsing Recipe Ops Backends Api Layers EinMix Texts Messages SpecMessages LayerMessages SpecLayerMessages LayerMessageFacts4 Instances.

(** The functions with messages do what those of the other theorems do; every
    EinopsError has one of the messages, and what it says is true. *)
Theorem C66_rearrange : forall (T : Type) (U : unicode) (os : nat -> orders) printable callable foreign class_name pattern sizes a,
  unicode_ok U -> (forall n, orders_ok (os n)) ->
  Rearrange_answer (T := T) U os printable callable foreign class_name pattern sizes = a ->
  match a with
  | Returns L => Rearrange U os pattern sizes = Ok L
  | Raises e => e <> EinopsError /\ Rearrange (T := T) U os pattern sizes = Err e
  | Reports text => Rearrange (T := T) U os pattern sizes = Err EinopsError /\ exists m, true_of_layer U pattern (OpStr (lit "rearrange")) sizes m /\
      text = preparing printable callable foreign (Rearrange_repr printable class_name (mkLayer (T := T) pattern (RStr (lit "rearrange")) sizes [])) m
  | UnboundLocal => False
  end.
Proof. exact (fun T U os pr ca fo cl p sizes a HU Hos H => rearrange_answer U HU os Hos pr ca fo cl p sizes a H). Qed.
Print Assumptions C66_rearrange.
Theorem C66_reduce : forall (T : Type) (U : unicode) (os : nat -> orders) printable callable foreign fun_repr class_name pattern (red : reduction T) sizes a,
  unicode_ok U -> (forall n, orders_ok (os n)) ->
  Reduce_answer U os printable callable foreign fun_repr class_name pattern red sizes = a ->
  match a with
  | Returns L => Reduce U os pattern red sizes = Ok L
  | Raises e => e <> EinopsError /\ Reduce U os pattern red sizes = Err e
  | Reports text => Reduce U os pattern red sizes = Err EinopsError /\ exists m, true_of_layer U pattern (op_of red) sizes m /\
      text = preparing printable callable foreign (Reduce_repr printable fun_repr class_name (mkLayer pattern red sizes [])) m
  | UnboundLocal => False
  end.
Proof. exact (fun T U os pr ca fo fr cl p red sizes a HU Hos H => reduce_answer_layer U HU os Hos pr ca fo fr cl p red sizes a H). Qed.
Print Assumptions C66_reduce.
Theorem C66_einmix : forall (T : Type) (U : unicode) (o : orders) (os os' : nat -> orders) printable pattern weight bias sizes a,
  unicode_ok U -> orders_ok o -> (forall n, orders_ok (os n)) -> (forall n, orders_ok (os' n)) -> NoDup (map fst sizes) ->
  EinMix_answer (T := T) U o os os' printable pattern weight bias sizes = a ->
  match a with
  | Returns M => EinMix U os os' pattern weight bias sizes = Ok M
  | Raises e => e <> EinopsError /\ EinMix (T := T) U os os' pattern weight bias sizes = Err e
  | Reports text => EinMix (T := T) U os os' pattern weight bias sizes = Err EinopsError /\
      exists f, true_of_mix U pattern weight bias sizes f /\ text = fault_text (T := T) printable f
  | UnboundLocal => False
  end.
Proof. exact (fun T U o os os' pr p w b sizes a HU Ho Hos Hos' Hn H => einmix_answer U HU o os os' Ho Hos Hos' pr p w b sizes a Hn H). Qed.
Print Assumptions C66_einmix.
(** every other exception of EinMix has one of five causes *)
Theorem C66_other : forall (T : Type) (U : unicode) (os os' : nat -> orders) pattern weight bias sizes e,
  unicode_ok U -> (forall n, orders_ok (os n)) -> (forall n, orders_ok (os' n)) ->
  (forall L R, reads U pattern L R -> plain L /\ plain R) -> (forall W, written U weight W -> plain W) ->
  EinMix (T := T) U os os' pattern weight bias sizes = Err e -> e <> EinopsError -> other_of_mix U pattern weight sizes e.
Proof. exact (fun T U os os' p w b sizes e HU Hos Hos' H1 H2 H He => mix_other U HU os os' Hos Hos' p w b sizes e H1 H2 H He). Qed.
Print Assumptions C66_other.

(** ** Examples (tests: complete texts) *)
Definition layer_said {A} (a : answer A) : pystr := match a with Reports t => t | _ => [] end.
Example C66_infer : layer_said (Rearrange_answer (T := tensor Z) ascii_unicode (fun _ => forward) (fun _ => true) [] [] (lit "Rearrange") (lit "a (b c) -> a b c") []) =
  lit " Error while preparing Rearrange('a (b c) -> a b c')" ++ [10%N] ++ lit " Could not infer sizes for {'b', 'c'}".
Proof. vm_compute. reflexivity. Qed.
Example C66_reduction : layer_said (Reduce_answer (T := tensor Z) ascii_unicode (fun _ => forward) (fun _ => true) [] [] (fun _ => []) (lit "Reduce") (lit "a b -> a c") (RStr (lit "max")) [(lit "b", 2%Z)]) =
  lit " Error while preparing Reduce('a b -> a c', 'max', b=2)" ++ [10%N] ++ lit " Unexpected identifiers on the right side of reduce max: {'c'}".
Proof. vm_compute. reflexivity. Qed.
Definition mix_said p w b sizes := layer_said (EinMix_answer (T := tensor Z) ascii_unicode forward (fun _ => forward) (fun _ => forward) (fun _ => true) p w b sizes).
Example C66_length : mix_said (lit "b c -> b d") (lit "c d") None [(lit "c", 3%Z)] = lit "Dimension d of weight should be specified".
Proof. vm_compute. reflexivity. Qed.
Example C66_inner : mix_said (lit "b (c e) -> b d") (lit "c d") None [(lit "d", 3%Z)] =
  lit " Error while preparing Rearrange('b (c e) -> b c e')" ++ [10%N] ++ lit " Could not infer sizes for {'c', 'e'}".
Proof. vm_compute. reflexivity. Qed.
(** a number on the right side is reported as an unknown axis, not as a number *)
Example C66_number : mix_said (lit "b 3 -> b 3") (lit "b") None [(lit "b", 3%Z)] = lit "Unrecognized identifiers on the right side of EinMix {3-axis}".
Proof. vm_compute. reflexivity. Qed.
Example C66_bias : mix_said (lit "b c -> d b") (lit "c d") (Some (lit "b")) [(lit "c", 3%Z); (lit "d", 3%Z)] = lit "Sizes not provided for bias axes {'b'}".
Proof. vm_compute. reflexivity. Qed.
Example C66_hypotheses : unicode_ok ascii_unicode /\ orders_ok forward /\
  true_of_mix ascii_unicode (lit "b c -> b d") (lit "c d") None [(lit "c", 3%Z)] (NoLength (AxName (lit "d"))) /\
  EinMix (T := tensor Z) ascii_unicode (fun _ => forward) (fun _ => forward) (lit "b c -> b d") (lit "c 1 d") None [(lit "c", 3%Z); (lit "d", 2%Z)] = Err ValueError.
Proof.
  split; [apply ascii_unicode_ok|]. split; [apply forward_ok|]. split; [|vm_compute; reflexivity].
  exists [nm "b"; nm "c"], [nm "b"; nm "d"], [nm "c"; nm "d"]. split; [solve_reads (lit "b c ") (lit " b d")|]. split; [unfold written; solve_written|].
  exists (lit "d"). split; [reflexivity|]. split; [right; left; reflexivity|]. intros [H|[]]. discriminate.
Qed.
