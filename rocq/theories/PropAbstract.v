(** * C106: the class that EinMix of the frameworks is derived from *)
From Verif Require Import Py Tensor SpecSem SpecGrammar SpecPattern SpecOps SpecEinMix
  Parsing Recipe Ops Backends Api Layers Einsum EinMix Flax Debugger Abstract Instances EinsumFacts4 MixFacts8 MixFacts9 AbstractFacts PropEinMix PropContraction.

(** it cannot be instantiated *)
Theorem C106_never : forall (U : unicode) (pattern weight_text : pystr) (bias_text : option pystr) (sizes : list (pystr * Z)),
  exists e, mixin U pattern weight_text bias_text sizes = Err e /\ (e = NotImplementedError \/ e = EinopsError \/ e = ValueError \/ e = TypeError).
Proof. exact mixin_fails. Qed.
Print Assumptions C106_never.

(** when the methods that are left to the frameworks are reached: the lengths and the bias do not matter *)
Theorem C106_reached : forall (U : unicode) (pattern weight_text : pystr) (bias_text : option pystr) (sizes : list (pystr * Z)), unicode_ok U ->
  (mixin U pattern weight_text bias_text sizes = Err NotImplementedError <->
   (forall s, In s (map fst sizes) -> ~ In s [lit "self"; lit "pattern"; lit "weight_shape"; lit "bias_shape"]) /\
   exists L R W, reads U pattern L R /\ written U weight_text W /\ incl (keys R) (keys L ++ keys W) /\ has_dots W = false /\ has_dots L = has_dots R /\ ~ grouped_dots L /\
     (has_numbers L = false /\ has_numbers R = false /\ has_numbers W = false) /\ forall i, In i W -> exists a, i = Atom a).
Proof. exact (fun U pattern wt bt sizes HU => mixin_reached U HU pattern wt bt sizes). Qed.
Print Assumptions C106_reached.

(** arguments that a framework's class or the debugging class accepts get that far *)
Theorem C106_accepted : forall (T : Type) (U : unicode) (os os' : nat -> orders) (pattern weight_text : pystr) (bias_text : option pystr) (sizes : list (pystr * Z)),
  ((exists M : einmix T, EinMix U os os' pattern weight_text bias_text sizes = Ok M) \/ (exists D, debugger U pattern weight_text bias_text sizes = Ok D)) ->
  mixin U pattern weight_text bias_text sizes = Err NotImplementedError.
Proof. exact @mixin_accepted. Qed.
Print Assumptions C106_accepted.

(** any other exception is the one that these classes raise *)
Theorem C106_same : forall (T : Type) (U : unicode) (os os' : nat -> orders) (pattern weight_text : pystr) (bias_text : option pystr) (sizes : list (pystr * Z)) (e : exn),
  mixin U pattern weight_text bias_text sizes = Err e -> e <> NotImplementedError ->
  @EinMix T U os os' pattern weight_text bias_text sizes = Err e /\ debugger U pattern weight_text bias_text sizes = Err e.
Proof. exact (fun T U os os' pattern wt bt sizes e => @mixin_first T U os os' pattern wt bt sizes e). Qed.
Print Assumptions C106_same.

(** flax does not run [__init__] of this class, and looks at the arguments in the call *)
Theorem C106_flax : forall (A : Type) (r : runtime A) (os os' : nat -> orders) (lib_einsum : pystr -> list (tensor A) -> result (tensor A)) (iadd : tensor A -> tensor A -> result (tensor A))
    (pattern weight_text : pystr) (bias_text : option pystr) (sizes : list (pystr * Z)) (e : exn) (weight : tensor A) (bias : option (tensor A)) (x : tensor A),
  mixin (rt_unicode r) pattern weight_text bias_text sizes = Err e -> e = EinopsError \/ e = ValueError ->
  flax_einmix r os os' lib_einsum iadd pattern weight_text bias_text sizes weight bias x = Err e.
Proof. exact (fun A r os os' f g pattern wt bt sizes e weight bias x => mixin_flax r os os' f g pattern wt bt sizes e weight bias x). Qed.
Print Assumptions C106_flax.

Example C106_flax_case : forall weight bias x,
  mixin ascii_unicode (lit "b c -> b e") (lit "c d") None [] = Err EinopsError /\
  flax_einmix numpy_like (fun _ => forward) (fun _ => backward) (ref_einsum Z.add Z.mul 0%Z 1%Z) (ref_iadd Z.add 0%Z) (lit "b c -> b e") (lit "c d") None [] weight bias x = Err EinopsError.
Proof. intros. split; vm_compute; reflexivity. Qed.

Example C106_case :
  let none := @nil (pystr * Z) in let c := [(lit "c", 3%Z)] in
  mixin ascii_unicode (lit "b c -> b d") (lit "c d") None [(lit "c", 3%Z); (lit "d", 2%Z)] = Err NotImplementedError /\
  (exists M : einmix (tensor Z), EinMix ascii_unicode (fun _ => forward) (fun _ => backward) (lit "b c -> b d") (lit "c d") None [(lit "c", 3%Z); (lit "d", 2%Z)] = Ok M) /\
  (* a length is missing: the frameworks' classes say so, this class does not get there *)
  mixin ascii_unicode (lit "b c -> b d") (lit "c d") None c = Err NotImplementedError /\
  debugger ascii_unicode (lit "b c -> b d") (lit "c d") None c = Err EinopsError /\
  (* e is nowhere else *)
  mixin ascii_unicode (lit "b c -> b e") (lit "c d") None c = Err EinopsError /\
  debugger ascii_unicode (lit "b c -> b e") (lit "c d") None c = Err EinopsError /\
  mixin ascii_unicode (lit "b c") (lit "c d") None none = Err ValueError /\
  mixin ascii_unicode (lit "b c -> b d") (lit "c d") None [(lit "pattern", 3%Z)] = Err TypeError.
Proof.
  cbv zeta. split; [vm_compute; reflexivity|]. split; [eexists; vm_compute; reflexivity|]. repeat split; vm_compute; reflexivity.
Qed.
