(** * Layers in graphs compute what layers compute *)
From Verif Require Import Py Tensor ListFacts SpecGrammar SpecPattern Parsing Recipe Ops Backends Api SymFacts SymFacts2 Symbolic ParseFacts Layers SpecLayers LayerFacts EinMix MixFacts9 SymLayers.

Lemma computes_rank {E A} (e : E) (n : node E A) (t : tensor A) : computes e n t -> length (n_static n) = length (shp t).
Proof. apply static_len. Qed.

Section Layer.
  Context {E A : Type} (r : runtime A) (Hg : has_graphs (rt_framework r)).
  Lemma graph_sizes_same (e : E) sizes : same_sizes e (graph_sizes sizes) sizes.
  Proof. induction sizes as [|[k z] sizes IH]; constructor; [split; reflexivity|exact IH]. Qed.

  (** the same recipes, and the same reduction, by name *)
  Definition twin (G : layer (node E A)) (L : layer (tensor A)) : Prop :=
    ly_recipes G = ly_recipes L /\ ly_sizes G = ly_sizes L /\ exists s, ly_red G = RStr s /\ ly_red L = RStr s.
  Lemma twin_call G L (e : E) n t y : twin G L -> (ly_red L = RStr (lit "mean") -> n_float n = true) -> computes e n t -> call_layer r L t = Ok y ->
    exists m, graph_call_layer r G n = Ok m /\ computes e m y.
  Proof.
    intros (Er & Es & s & Eg & El) Hm Hc H.
    assert (H' : mixin_apply r L t = Ok y) by (unfold call_layer in H; destruct Hg as [X|[X|X]]; rewrite X in H; exact H). clear H.
    unfold mixin_apply, recipe_for in H'. unfold graph_call_layer. rewrite Er, Es, Eg, (computes_rank e n t Hc).
    destruct (dict_get Nat.eqb (length (shp t)) (ly_recipes L)) as [rec|]; [|discriminate]. cbn [of_option bind] in H' |- *. rewrite El in H', Hm.
    unfold apply_recipe in *. apply bind_Ok in H' as [k' [Hk H']].
    set (fl := str_eqb s (lit "mean")).
    assert (Hfl : fl = true <-> s = lit "mean") by apply str_eqb_eq.
    pose proof (graph_sim e (rt_lib r) (rt_red r) (rt_isf r) (rt_num r) fl (rt_framework r) Hg) as HB.
    assert (HR : computes e n t /\ (fl = true -> n_float n = true)). { split; [exact Hc|]. intros X. apply Hm. apply Hfl in X. rewrite X. reflexivity. }
    pose proof (bs_shape _ _ _ _ HB _ _ HR) as Hs.
    destruct (reconstruct_sim sym_ops (stands_for e) (sym_dim_sim e) rec _ _ _ _ Hs (graph_sizes_same e (ly_sizes L)) k' Hk) as (k & Ek & Hkk).
    unfold the_graph_backend. rewrite Ek. cbn [bind].
    destruct (apply_cooked_sim (stands_for e) _ _ _ HB k k' n t (RStr s) (RStr s) Hkk HR) with (b := y) as (m & Hm' & [Hcm _]); [|exact H'|eauto].
    cbn. split; [reflexivity|]. intros X n0 t0 [_ Hf]. apply Hf, Hfl. exact X.
  Qed.
End Layer.

Section Made.
  Context {E A : Type} (U : unicode) (HU : unicode_ok U).
  Lemma twin_made os pattern s sizes (L : layer (tensor A)) : make_layer U os pattern (RStr s) sizes = Ok L ->
    exists G : layer (node E A), make_layer U os pattern (RStr s) sizes = Ok G /\ twin G L.
  Proof.
    intros H. apply bind_Ok in H as [recipes [H X]]. injection X as <-. exists (mkLayer pattern (RStr s) sizes recipes). split; [unfold make_layer; cbn [op_of] in *; rewrite H; reflexivity|].
    split; [reflexivity|]. split; [reflexivity|]. exists s. auto.
  Qed.
  Lemma rearrange_twin os pattern sizes (L : layer (tensor A)) : Rearrange U os pattern sizes = Ok L -> exists G : layer (node E A), Rearrange U os pattern sizes = Ok G /\ twin G L.
  Proof. intros H. unfold Rearrange in *. apply bind_Ok in H as [[] [Hk H]]. rewrite Hk. cbn [bind]. apply twin_made. exact H. Qed.
  Lemma reduce_twin os pattern s sizes (L : layer (tensor A)) : Reduce U os pattern (RStr s) sizes = Ok L -> exists G : layer (node E A), Reduce U os pattern (RStr s) sizes = Ok G /\ twin G L.
  Proof. intros H. unfold Reduce in *. apply bind_Ok in H as [[] [Hk H]]. rewrite Hk. cbn [bind]. apply twin_made. exact H. Qed.

  Definition twin_option (G : option (layer (node E A))) (L : option (layer (tensor A))) : Prop :=
    match G, L with Some G, Some L => twin G L /\ ly_red L = RStr s_rearrange | None, None => True | _, _ => False end.
  Lemma twin_layers os os' pre post p q : rearrange_layers (T := tensor A) U os os' pre post = Ok (p, q) ->
    exists p' q', rearrange_layers (T := node E A) U os os' pre post = Ok (p', q') /\ twin_option p' p /\ twin_option q' q.
  Proof.
    intros H. unfold rearrange_layers in *. apply bind_Ok in H as [a [Ha H]]. apply bind_Ok in H as [b [Hb H]]. injection H as <- <-.
    assert (G1 : exists a', match pre with Some (p, lengths) => let* L := Rearrange (T := node E A) U os p lengths in Ok (Some L) | None => Ok None end = Ok a' /\ twin_option a' a).
    { destruct pre as [[p s]|]; [|injection Ha as <-; exists None; split; [reflexivity|exact I]]. apply bind_Ok in Ha as [L [HL Ha]]. injection Ha as <-.
      destruct (rearrange_twin _ _ _ _ HL) as (G & HG & HT). exists (Some G). rewrite HG. split; [reflexivity|]. split; [exact HT|].
      unfold Rearrange in HL. apply bind_Ok in HL as [u [_ HL]]. apply (made_fields U _ _ _ _ _ HL). }
    assert (G2 : exists b', match post with Some p => let* L := Rearrange (T := node E A) U os' p [] in Ok (Some L) | None => Ok None end = Ok b' /\ twin_option b' b).
    { destruct post as [p|]; [|injection Hb as <-; exists None; split; [reflexivity|exact I]]. apply bind_Ok in Hb as [L [HL Hb]]. injection Hb as <-.
      destruct (rearrange_twin _ _ _ _ HL) as (G & HG & HT). exists (Some G). rewrite HG. split; [reflexivity|]. split; [exact HT|].
      unfold Rearrange in HL. apply bind_Ok in HL as [u [_ HL]]. apply (made_fields U _ _ _ _ _ HL). }
    destruct G1 as (a' & -> & T1). cbn [bind]. destruct G2 as (b' & -> & T2). cbn [bind]. exists a', b'. auto.
  Qed.
  Definition twin_mix (G : einmix (node E A)) (M : einmix (tensor A)) : Prop :=
    twin_option (em_pre G) (em_pre M) /\ twin_option (em_post G) (em_post M) /\ em_einsum G = em_einsum M /\ em_weight G = em_weight M /\ em_bias G = em_bias M /\ em_fan_in G = em_fan_in M.
  Lemma einmix_twin os os' pattern wt bt sizes (M : einmix (tensor A)) : EinMix U os os' pattern wt bt sizes = Ok M ->
    exists G : einmix (node E A), EinMix U os os' pattern wt bt sizes = Ok G /\ twin_mix G M.
  Proof.
    intros H. unfold EinMix in *. apply bind_Ok in H as [[] [Hk H]]. rewrite Hk. cbn [bind]. unfold initialize_einmix in *.
    apply bind_Ok in H as [[[[[[lp rp] lft] rght] weight] next] [Hp H]]. rewrite Hp. cbn [bind].
    apply bind_Ok in H as [[p q] [Hl H]]. destruct (twin_layers _ _ _ _ _ _ Hl) as (p' & q' & Hl' & T1 & T2). rewrite Hl'. cbn [bind].
    apply bind_Ok in H as [[] [H1 H]]. rewrite H1. cbn [bind]. apply bind_Ok in H as [wl [H2 H]]. rewrite H2. cbn [bind]. apply bind_Ok in H as [fi [H3 H]]. rewrite H3. cbn [bind].
    apply bind_Ok in H as [bl [H4 H]]. rewrite H4. cbn [bind]. apply bind_Ok in H as [[] [H5 H]]. rewrite H5. cbn [bind]. apply bind_Ok in H as [text [H6 H]]. rewrite H6. cbn [bind].
    injection H as <-. eexists. split; [reflexivity|]. cbn. unfold twin_mix. cbn. auto 8.
  Qed.
End Made.

Section Agree.
  Context {E A : Type} (r : runtime A) (Hok : runtime_ok r) (Hg : has_graphs (rt_framework r)).
  Notation U := (rt_unicode r).
  Context (os os' os2 os2' : nat -> orders) (Ho : forall n, orders_ok (os n)) (Ho' : forall n, orders_ok (os' n)) (Ho2 : forall n, orders_ok (os2 n)) (Ho2' : forall n, orders_ok (os2' n)).
  Context (sizes : list (pystr * Z)) (Hn : NoDup (map fst sizes)).
  Lemma rearrange_graph pattern (L : layer (tensor A)) : Rearrange U os pattern sizes = Ok L ->
    exists G : layer (node E A), Rearrange U os2 pattern sizes = Ok G /\
      forall e n t y, computes e n t -> call_layer r L t = Ok y -> exists m, graph_call_layer r G n = Ok m /\ computes e m y.
  Proof.
    intros H. destruct (rearrange_saved U (ro_unicode _ Hok) os os2 pattern sizes L Ho Ho2 Hn H) as (L' & H' & _ & Hcall).
    assert (H2 : Rearrange U os2 pattern sizes = Ok L').
    { unfold Rearrange_setstate, Rearrange_getstate in H'. cbn [fst snd] in H'. unfold Rearrange in H. apply bind_Ok in H as [[] [_ H]].
      destruct (made_fields U _ _ _ _ _ H) as (E1 & _ & E3). rewrite E1, E3 in H'. exact H'. }
    destruct (rearrange_twin (E := E) U os2 pattern sizes L' H2) as (G & HG & HT). exists G. split; [exact HG|].
    intros e n t y Hc Hy. rewrite <- (Hcall r t Hok eq_refl) in Hy. eapply twin_call; eauto.
    unfold Rearrange in H2. apply bind_Ok in H2 as [u [_ H2]]. destruct (made_fields U _ _ _ _ _ H2) as (_ & E2 & _). rewrite E2. discriminate.
  Qed.
  Lemma reduce_graph pattern s (L : layer (tensor A)) : Reduce U os pattern (RStr s) sizes = Ok L ->
    exists G : layer (node E A), Reduce U os2 pattern (RStr s) sizes = Ok G /\
      forall e n t y, (s = lit "mean" -> n_float n = true) -> computes e n t -> call_layer r L t = Ok y -> exists m, graph_call_layer r G n = Ok m /\ computes e m y.
  Proof.
    intros H. destruct (reduce_saved U (ro_unicode _ Hok) os os2 pattern (RStr s) sizes L Ho Ho2 Hn H) as (L' & H' & _ & Hcall).
    assert (H2 : Reduce U os2 pattern (RStr s) sizes = Ok L').
    { unfold Reduce_setstate, Reduce_getstate in H'. unfold Reduce in H. apply bind_Ok in H as [[] [_ H]].
      destruct (made_fields U _ _ _ _ _ H) as (E1 & E2 & E3). rewrite E1, E2, E3 in H'. exact H'. }
    destruct (reduce_twin (E := E) U os2 pattern s sizes L' H2) as (G & HG & HT). exists G. split; [exact HG|].
    intros e n t y Hm Hc Hy. rewrite <- (Hcall r t Hok eq_refl) in Hy. eapply twin_call; eauto.
    unfold Reduce in H2. apply bind_Ok in H2 as [u [_ H2]]. destruct (made_fields U _ _ _ _ _ H2) as (_ & E2 & _). rewrite E2. intros X. injection X as X. auto.
  Qed.
  Context (g_einsum : pystr -> list (node E A) -> result (node E A)) (lib : pystr -> list (tensor A) -> result (tensor A)) (He : graph_einsum_ok g_einsum lib)
    (g_add : node E A -> node E A -> result (node E A)) (iadd : tensor A -> tensor A -> result (tensor A)) (Ha : graph_add_ok g_add iadd).
  Lemma option_call G L (e : E) n t y : twin_option G L -> computes e n t -> call_option r L t = Ok y -> exists m, graph_call_option r G n = Ok m /\ computes e m y.
  Proof.
    destruct G as [G|], L as [L|]; cbn; try contradiction.
    - intros [HT Hr] Hc Hy. eapply twin_call; eauto. rewrite Hr. discriminate.
    - intros _ Hc [= <-]. eauto.
  Qed.
  Lemma einmix_graph pattern wt bt (M : einmix (tensor A)) : EinMix U os os' pattern wt bt sizes = Ok M ->
    exists G : einmix (node E A), EinMix U os2 os2' pattern wt bt sizes = Ok G /\ em_weight G = em_weight M /\ em_bias G = em_bias M /\ em_fan_in G = em_fan_in M /\
      forall e n t wn w bn b y, computes e n t -> computes e wn w -> option_rel (computes e) bn b -> call_einmix r lib iadd M w b t = Ok y ->
        exists m, graph_call_einmix r g_einsum g_add G wn bn n = Ok m /\ computes e m y.
  Proof.
    intros H. pose proof (einmix_orders (A := A) U (ro_unicode _ Hok) os os' os2 os2' pattern wt bt sizes Ho Ho' Ho2 Ho2' Hn) as X. rewrite H in X.
    destruct (EinMix U os2 os2' pattern wt bt sizes) as [M'|] eqn:H2; [|contradiction]. destruct X as (_ & _ & _ & _ & Ew & Eb & Ef & _ & Hcall).
    destruct (einmix_twin (E := E) U os2 os2' pattern wt bt sizes M' H2) as (G & HG & T1 & T2 & Ee & Ew' & Eb' & Ef'). exists G. split; [exact HG|].
    split; [congruence|]. split; [congruence|]. split; [congruence|].
    intros e n t wn w bn b y Hc Hw Hb Hy. rewrite <- (Hcall r lib iadd w b t Hok eq_refl) in Hy. unfold call_einmix in Hy. unfold graph_call_einmix.
    apply bind_Ok in Hy as [t1 [H1 Hy]]. destruct (option_call _ _ e n t t1 T1 Hc H1) as (n1 & -> & C1). cbn [bind]. rewrite Ee.
    apply bind_Ok in Hy as [t2 [Ht2 Hy]]. destruct (He (em_einsum M') [n1; wn] e [t1; w] t2) as (n2 & -> & C2); [constructor; [exact C1|constructor; [exact Hw|constructor]]|exact Ht2|]. cbn [bind].
    apply bind_Ok in Hy as [t3 [Ht3 Hy]].
    assert (G3 : exists n3, match bn with Some b => g_add n2 b | None => Ok n2 end = Ok n3 /\ computes e n3 t3).
    { destruct bn as [bn|], b as [b|]; cbn in Hb; try contradiction; [eapply Ha; eauto|]. injection Ht3 as <-. eauto. }
    destruct G3 as (n3 & -> & C3). cbn [bind]. eapply option_call; eauto.
  Qed.
End Agree.
