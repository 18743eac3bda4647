(** * The abstract class of EinMix *)
From Verif Require Import Py Tensor SpecSem SpecGrammar SpecPattern SpecOps SpecEinMix ParseFacts ParseFacts2 ListFacts Compile FrontFacts2 MixFacts4 LayerMessageFacts4 Parsing Recipe Ops Backends Api Einsum Layers EinMix Flax Debugger Abstract.

Lemma mixin_form U p w b sizes : mixin U p w b sizes =
  match check_kwargs [lit "self"; lit "pattern"; lit "weight_shape"; lit "bias_shape"] sizes with
  | Ok _ => match einmix_parse U p w with Ok _ => Err NotImplementedError | Err e => Err e end
  | Err e => Err e end.
Proof.
  unfold mixin. destruct (check_kwargs _ sizes) as [u|e]; cbn [bind]; [|reflexivity].
  destruct (einmix_parse U p w) as [[[[[[lp rp] lft] rght] weight] next]|e]; reflexivity.
Qed.
Lemma mixin_never U p w b sizes v : mixin U p w b sizes <> Ok v.
Proof. rewrite mixin_form. destruct (check_kwargs _ sizes), (einmix_parse U p w); discriminate. Qed.
Lemma mixin_made {T} U os os' p w b sizes (M : einmix T) : EinMix U os os' p w b sizes = Ok M -> mixin U p w b sizes = Err NotImplementedError.
Proof.
  rewrite mixin_form. unfold EinMix, initialize_einmix. destruct (check_kwargs _ sizes) as [u|e]; cbn [bind]; [|discriminate].
  destruct (einmix_parse U p w) as [v|e]; [reflexivity|discriminate].
Qed.
Lemma mixin_debugged U p w b sizes d : debugger U p w b sizes = Ok d -> mixin U p w b sizes = Err NotImplementedError.
Proof.
  rewrite mixin_form. unfold debugger. destruct (check_kwargs _ sizes) as [u|e]; cbn [bind]; [|discriminate].
  destruct (einmix_parse U p w) as [v|e]; [reflexivity|discriminate].
Qed.
Lemma mixin_first {T} U os os' p w b sizes e : mixin U p w b sizes = Err e -> e <> NotImplementedError ->
  @EinMix T U os os' p w b sizes = Err e /\ debugger U p w b sizes = Err e.
Proof.
  rewrite mixin_form. unfold EinMix, initialize_einmix, debugger. destruct (check_kwargs _ sizes) as [u|e']; cbn [bind]; [|intros [= ->]; auto].
  destruct (einmix_parse U p w) as [v|e']; cbn [bind]; [congruence|intros [= ->]; auto].
Qed.
Lemma einmix_parse_err U p w e : einmix_parse U p w = Err e -> e = EinopsError \/ e = ValueError.
Proof.
  unfold einmix_parse. destruct (str_split s_arrow p) as [|l [|r [|? ?]]]; try (intros [= <-]; now right). intros H. left.
  destruct (parse_expression U false false 0 l) as [[lft k1]|e1] eqn:E1; cbn [bind] in H; [|injection H as <-; apply (parse_expression_err _ _ _ _ _ _ E1)].
  destruct (parse_expression U false false k1 r) as [[rght k2]|e2] eqn:E2; cbn [bind] in H; [|injection H as <-; apply (parse_expression_err _ _ _ _ _ _ E2)].
  destruct (parse_expression U false false k2 w) as [[weight k3]|e3] eqn:E3; cbn [bind] in H; [|injection H as <-; apply (parse_expression_err _ _ _ _ _ _ E3)].
  unfold report_axes in H. repeat (apply bind_Err in H as [H|[? [_ H]]]; [apply raise_if_Err in H as [_ H]; congruence|]). discriminate.
Qed.
Lemma mixin_errors U p w b sizes e : mixin U p w b sizes = Err e -> e = NotImplementedError \/ e = EinopsError \/ e = ValueError \/ e = TypeError.
Proof.
  rewrite mixin_form. destruct (check_kwargs _ sizes) as [[]|e'] eqn:K.
  - destruct (einmix_parse U p w) as [v|e'] eqn:E; intros [= <-]; [auto|]. destruct (einmix_parse_err _ _ _ _ E); auto.
  - intros [= <-]. apply raise_if_Err in K as [_ <-]. auto.
Qed.
(** when exactly the two methods are reached *)
Lemma mixin_reached U (HU : unicode_ok U) p w b sizes : mixin U p w b sizes = Err NotImplementedError <->
  (forall s, In s (map fst sizes) -> ~ In s [lit "self"; lit "pattern"; lit "weight_shape"; lit "bias_shape"]) /\
  exists L R W, reads U p L R /\ written U w W /\ incl (keys R) (keys L ++ keys W) /\ has_dots W = false /\ has_dots L = has_dots R /\ ~ grouped_dots L /\
    (has_numbers L = false /\ has_numbers R = false /\ has_numbers W = false) /\ forall i, In i W -> exists a, i = Atom a.
Proof.
  rewrite mixin_form, <- kwargs_iff. destruct (check_kwargs _ sizes) as [[]|e] eqn:K.
  2:{ split; [|intros [X _]; discriminate]. unfold check_kwargs, raise_if in K. destruct (existsb _ sizes); [injection K as <-|]; discriminate. }
  split.
  - intros H. split; [reflexivity|]. destruct (einmix_parse U p w) as [v|e] eqn:E.
    + destruct (parse_shapes U HU p w v E) as (l & r & L & R & W & Es & WL & WR & WW & [P1 P2 P3 P4 P5 P6] & _).
      exists L, R, W. apply split_two in Es. split; [exists l, r; auto|]. repeat split; auto; try tauto. apply (grouped_dots_none U l L WL), P4.
    + exfalso. injection H as ->. destruct (einmix_parse_err _ _ _ _ E); discriminate.
  - intros (_ & L & R & W & HR & WW & P1 & P2 & P3 & P4 & P5 & P6). apply (reads_split U HU) in HR as (l & r & Es & WL & WR).
    assert (Hpo : parse_ok L R W) by (split; auto; apply (grouped_dots_none U l L WL), P4).
    rewrite (proj2 (parse_iff U HU p w l r L R W Es WL WR WW _) (conj Hpo eq_refl)). reflexivity.
Qed.
Lemma mixin_fails U p w b sizes : exists e, mixin U p w b sizes = Err e /\ (e = NotImplementedError \/ e = EinopsError \/ e = ValueError \/ e = TypeError).
Proof.
  destruct (mixin U p w b sizes) as [v|e] eqn:E; [destruct (mixin_never _ _ _ _ _ _ E)|]. exists e. split; [reflexivity|]. exact (mixin_errors _ _ _ _ _ _ E).
Qed.
Lemma mixin_accepted {T} U os os' p w b sizes :
  ((exists M : einmix T, EinMix U os os' p w b sizes = Ok M) \/ (exists D, debugger U p w b sizes = Ok D)) -> mixin U p w b sizes = Err NotImplementedError.
Proof. intros [[M E]|[D E]]; [exact (mixin_made _ _ _ _ _ _ _ _ E)|exact (mixin_debugged _ _ _ _ _ _ E)]. Qed.
Lemma mixin_flax {A} (r : runtime A) os os' f g p w b sizes e weight bias x : mixin (rt_unicode r) p w b sizes = Err e -> e = EinopsError \/ e = ValueError ->
  flax_einmix r os os' f g p w b sizes weight bias x = Err e.
Proof.
  rewrite mixin_form. unfold flax_einmix, flax_setup. destruct (check_kwargs _ sizes) as [u|e'] eqn:K.
  - destruct (einmix_parse _ p w) as [v|e']; cbn [bind]; intros H; injection H as H; [subst e; intros [X|X]; discriminate|subst e; reflexivity].
  - apply raise_if_Err in K as [_ K]. intros H; injection H as H. intros [X|X]; congruence.
Qed.
