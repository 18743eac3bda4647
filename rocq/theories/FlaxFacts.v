(** * The flax layers *)
From Verif Require Import Py Tensor ListFacts SpecGrammar SpecPattern SpecOps Parsing Recipe Ops Backends Api ApiFacts ParseFacts FrontFacts2 Layers SpecLayers LayerFacts EinMix Flax.

Section Facts.
  Context {A : Type} (r : runtime A) (Hok : runtime_ok r) (Hj : rt_framework r = Jax).
  Notation U := (rt_unicode r).
  Context (os os' : nat -> orders) (Ho : forall n, orders_ok (os n)) (Ho' : forall n, orders_ok (os' n)).
  Lemma jax_call (L : layer (tensor A)) x : mixin_apply r L x = call_layer r L x.
  Proof. unfold call_layer. rewrite Hj. reflexivity. Qed.
  Lemma jax_fits red : torch_fits r red.
  Proof. unfold torch_fits. intros X. rewrite Hj in X. discriminate. Qed.

  (** a call of the module, compared with the function *)
  Definition like_module (pattern : pystr) (module_ function : tensor A -> result (tensor A)) : Prop := forall x,
    (forall L R e, reads U pattern L R -> rank_fits L (length (shp x)) e -> e < 8 -> module_ x = function x) /\
    ((forall L R, ~ reads U pattern L R) -> module_ x = function x) /\
    (forall L R, reads U pattern L R -> (forall e, rank_fits L (length (shp x)) e -> 8 <= e) -> exists ex, module_ x = Err ex).
  Lemma like_like pattern M f : like_function r M pattern f -> like_module pattern (fun x => call_layer r M x) f.
  Proof.
    intros (l & rr & Hr & H) x. destruct (H x) as [H1 H2]. split; [|split].
    - intros L R e Hr' Hk He. destruct (reads_fun U (ro_unicode _ Hok) pattern L R l rr Hr' Hr) as [-> ->]. eauto.
    - intros X. exfalso. apply (X l rr Hr).
    - intros L R Hr' Hk. destruct (reads_fun U (ro_unicode _ Hok) pattern L R l rr Hr' Hr) as [-> ->]. rewrite (H2 Hk). eauto.
  Qed.
  Lemma flax_rearrange_like pattern sizes : NoDup (map fst sizes) -> no_reserved sizes -> ~ In (lit "self") (map fst sizes) ->
    like_module pattern (flax_rearrange r os pattern sizes) (fun x => rearrange r (One x) pattern sizes).
  Proof.
    intros Hn Hres Hself x. unfold flax_rearrange. destruct (Rearrange U os pattern sizes) as [M|ex] eqn:E; cbn [bind].
    - rewrite jax_call. apply (like_like pattern M _ (rearrange_layer r Hok os pattern sizes M Ho Hn Hres E) x).
    - rewrite (rearrange_layer_error r Hok os pattern sizes ex Ho Hres Hself E x). split; [|split]; eauto.
  Qed.
  Lemma flax_reduce_like pattern red sizes : NoDup (map fst sizes) -> no_reserved sizes -> ~ In (lit "self") (map fst sizes) ->
    like_module pattern (flax_reduce r os pattern red sizes) (fun x => reduce r (One x) pattern red sizes).
  Proof.
    intros Hn Hres Hself x. unfold flax_reduce. destruct (Reduce U os pattern red sizes) as [M|ex] eqn:E; cbn [bind].
    - rewrite jax_call. apply (like_like pattern M _ (reduce_layer r Hok os pattern red sizes M Ho Hn Hres (jax_fits red) E) x).
    - rewrite (reduce_layer_error r Hok os pattern red sizes ex Ho Hres Hself E x). split; [|split]; eauto.
  Qed.

  Context (lib : pystr -> list (tensor A) -> result (tensor A)) (iadd : tensor A -> tensor A -> result (tensor A)).
  Definition mix_params : list pystr := [lit "self"; lit "pattern"; lit "weight_shape"; lit "bias_shape"].
  Lemma free_kwargs (reserved : list pystr) (sizes : list (pystr * Z)) : (forall s, In s (map fst sizes) -> ~ In s reserved) -> check_kwargs reserved sizes = Ok tt.
  Proof.
    intros H. unfold check_kwargs. replace (existsb (fun '(k, _) => str_mem k reserved) sizes) with false; [reflexivity|]. symmetry. apply not_true_is_false. intros X.
    apply existsb_exists in X as [[k z] [Hk X]]. apply str_mem_In in X. apply (H k); [|exact X]. apply (in_map fst) in Hk. exact Hk.
  Qed.
  Lemma flax_einmix_iff pattern wt bt sizes w b x y : (forall s, In s (map fst sizes) -> ~ In s mix_params) ->
    flax_einmix r os os' lib iadd pattern wt bt sizes w b x = Ok y <->
    exists M, EinMix U os os' pattern wt bt sizes = Ok M /\ call_einmix r lib iadd M w b x = Ok y.
  Proof.
    intros Hfree. unfold flax_einmix, EinMix, initialize_einmix, flax_setup.
    unfold mix_params in Hfree. rewrite (free_kwargs _ _ Hfree). cbn [bind].
    destruct (einmix_parse U pattern wt) as [[[[[[lp rp] lft] rght] weight] next]|ex]; cbn [bind]; [|split; [discriminate|intros (M & X & _); discriminate]].
    set (pre := pre_reshape lp lft sizes). set (post := post_reshape rp rght).
    destruct (einmix_check lft rght weight sizes) as [[]|ex] eqn:E1; cbn [bind].
    2:{ split; [discriminate|]. intros (M & X & _). apply bind_Ok in X as [[p q] [_ X]]. discriminate. }
    destruct (weight_lengths weight sizes) as [wl|ex]; cbn [bind].
    2:{ split; [discriminate|]. intros (M & X & _). apply bind_Ok in X as [[p q] [_ X]]. discriminate. }
    destruct (fan_in rght weight sizes) as [fi|ex]; cbn [bind].
    2:{ split; [discriminate|]. intros (M & X & _). apply bind_Ok in X as [[p q] [_ X]]. discriminate. }
    destruct (bias_lengths U rght next bt sizes) as [bl|ex]; cbn [bind].
    2:{ split; [discriminate|]. intros (M & X & _). apply bind_Ok in X as [[p q] [_ X]]. discriminate. }
    destruct (raise_if (fi =? 0)%Z ZeroDivisionError) as [[]|ex]; cbn [bind].
    2:{ split; [discriminate|]. intros (M & X & _). apply bind_Ok in X as [[p q] [_ X]]. discriminate. }
    destruct (einsum_text lft rght weight) as [text|ex]; cbn [bind].
    2:{ split; [discriminate|]. intros (M & X & _). apply bind_Ok in X as [[p q] [_ X]]. discriminate. }
    unfold flax_call. cbn [fm_pre fm_post fm_einsum]. unfold rearrange_layers, call_einmix. split.
    - intros H. apply bind_Ok in H as [t1 [H1 H]]. apply bind_Ok in H as [t2 [H2 H]]. apply bind_Ok in H as [t3 [H3 H]].
      assert (G1 : exists P, match pre with Some (p, lengths) => let* L := Rearrange U os p lengths in Ok (Some L) | None => Ok None end = Ok P /\ call_option r P x = Ok t1).
      { destruct pre as [[p s]|]; [|injection H1 as <-; exists None; split; reflexivity]. apply bind_Ok in H1 as [L [HL H1]]. exists (Some L). rewrite HL. split; [reflexivity|]. cbn. rewrite <- jax_call. exact H1. }
      assert (G2 : exists Q, match post with Some p => let* L := Rearrange U os' p [] in Ok (Some L) | None => Ok None end = Ok Q /\ call_option r Q t3 = Ok y).
      { destruct post as [p|]; [|injection H as <-; exists None; split; reflexivity]. apply bind_Ok in H as [L [HL H]]. exists (Some L). rewrite HL. split; [reflexivity|]. cbn. rewrite <- jax_call. exact H. }
      destruct G1 as (P & -> & C1). destruct G2 as (Q & -> & C2). cbn [bind]. eexists. split; [reflexivity|]. cbn [em_pre em_post em_einsum].
      rewrite C1. cbn [bind]. rewrite H2. cbn [bind]. rewrite H3. cbn [bind]. exact C2.
    - intros (M & HM & H). apply bind_Ok in HM as [[P Q] [HL HM]]. injection HM as <-. cbn [em_pre em_post em_einsum] in H.
      apply bind_Ok in HL as [P' [HP HL]]. apply bind_Ok in HL as [Q' [HQ HL]]. injection HL as -> ->.
      apply bind_Ok in H as [t1 [H1 H]]. apply bind_Ok in H as [t2 [H2 H]]. apply bind_Ok in H as [t3 [H3 H]].
      assert (G1 : match pre with Some (p, sizes) => let* L := Rearrange U os p sizes in mixin_apply r L x | None => Ok x end = Ok t1).
      { destruct pre as [[p s]|]; [|injection HP as <-; exact H1]. apply bind_Ok in HP as [L [HL HP]]. injection HP as <-. rewrite HL. cbn [bind]. rewrite jax_call. exact H1. }
      rewrite G1. cbn [bind]. rewrite H2. cbn [bind]. rewrite H3. cbn [bind].
      destruct post as [p|]; [|injection HQ as <-; exact H]. apply bind_Ok in HQ as [L [HL HQ]]. injection HQ as <-. rewrite HL. cbn [bind]. rewrite jax_call. exact H.
  Qed.
End Facts.
