(** * Sizes of the tensors that layers, einsum and EinMix make: proofs *)
From Verif Require Import Py Tensor ListFacts TensorFacts SpecSem SpecGrammar SpecPattern SpecOps SpecCalls SpecElements SpecLayers ElementFacts Parsing Recipe Ops Backends Api Layers Einsum EinMix Dtypes
  Footprint LayerFootprint SpecFootprint SpecLayerFootprint FrontFacts2 FrontFacts3 MainFacts MainFacts3 ApiFacts ApiFacts5 CallsFacts LayerFacts FootprintFacts FootprintShapes.

Definition layers_erase {A} (L : layer (logged A)) (L' : layer (tensor A)) : Prop :=
  ly_recipes L = ly_recipes L' /\ ly_sizes L = ly_sizes L' /\ erases_to (ly_red L) (ly_red L').
Definition olayers_erase {A} (L : option (layer (logged A))) (L' : option (layer (tensor A))) : Prop :=
  match L, L' with Some L, Some L' => layers_erase L L' | None, None => True | _, _ => False end.
Definition mixes_erase {A} (M : einmix (logged A)) (M' : einmix (tensor A)) : Prop :=
  em_einsum M = em_einsum M' /\ em_weight M = em_weight M' /\ em_bias M = em_bias M' /\ olayers_erase (em_pre M) (em_pre M') /\ olayers_erase (em_post M) (em_post M').

Section Erase.
  Context {A : Type} (r : runtime A).
  Lemma erase_scriptable rec x red red' sizes : erases_to red red' ->
    erase (logged_scriptable_apply r rec x red sizes) = scriptable_apply r rec (fst x) red' sizes.
  Proof.
    intros HR. pose proof (logged_same (with_framework r TorchJit)) as SB. unfold logged_scriptable_apply, scriptable_apply. rewrite (sb_shape _ _ SB).
    destruct (reconstruct _ _ _ _) as [k|]; [|reflexivity]. cbn [bind].
    apply erase_bind; [apply erase_opt; intros s; apply (sb_reshape _ _ SB)|]. intros t1.
    apply erase_bind; [apply erase_opt; intros s; apply (sb_transpose _ _ SB)|]. intros t2.
    apply erase_bind; [destruct (k_reduced k); [reflexivity|]; destruct HR; [apply (sb_reduce _ _ SB)|reflexivity]|]. intros t3.
    apply erase_bind; [destruct (k_added k); [reflexivity|apply (sb_add _ _ SB)]|]. intros t4. apply erase_opt. intros s. apply (sb_reshape _ _ SB).
  Qed.
  Lemma erase_layer L L' x : layers_erase L L' -> erase (logged_call_layer r L x) = call_layer r L' (fst x).
  Proof.
    intros (E1 & E2 & HR). unfold logged_call_layer, call_layer.
    assert (M : erase (logged_mixin_apply r L x) = mixin_apply r L' (fst x)).
    { unfold logged_mixin_apply, mixin_apply, logged_recipe_for, recipe_for. rewrite E1, E2. destruct (of_option KeyError _) as [rec|]; [|reflexivity]. cbn [bind].
      unfold apply_recipe. rewrite (sb_shape _ _ (logged_same r)). destruct (reconstruct int_ops rec _ _) as [k|ex]; [|reflexivity]. cbn [bind]. apply erase_cooked; [apply logged_same|exact HR]. }
    destruct (rt_framework r); try exact M.
    unfold logged_torch_apply, torch_apply, logged_recipe_for, recipe_for. rewrite E1, E2. destruct (of_option KeyError _) as [rec|]; [|reflexivity]. cbn [bind].
    apply erase_scriptable, HR.
  Qed.
  Lemma erase_option L L' x : olayers_erase L L' -> erase (logged_call_option r L x) = call_option r L' (fst x).
  Proof. destruct L as [L|], L' as [L'|]; cbn; try contradiction; [|reflexivity]. apply erase_layer. Qed.
  Lemma erase_mix lib iadd M M' w b x : mixes_erase M M' ->
    erase (logged_call_einmix r lib iadd M w b x) = call_einmix r lib iadd M' (fst w) (option_map fst b) (fst x).
  Proof.
    intros (E1 & _ & _ & H1 & H2). unfold logged_call_einmix, call_einmix. apply erase_bind; [apply erase_option, H1|]. intros i.
    apply erase_bind; [unfold logged_lib_einsum; rewrite E1; apply erase_note|]. intros z. apply erase_bind; [|intros z'; apply erase_option, H2].
    destruct b as [b|]; [apply erase_note|reflexivity].
  Qed.

  (** *** constructors *)
  Context (U : unicode).
  Lemma make_erase os pattern (red : reduction (logged A)) (red' : reduction (tensor A)) sizes : erases_to red red' ->
    both layers_erase (make_layer U os pattern red sizes) (make_layer U os pattern red' sizes).
  Proof. intros H. unfold make_layer. rewrite (op_erase _ _ H). apply both_bind_same. intros recipes. split; [reflexivity|]. split; [reflexivity|exact H]. Qed.
  Lemma Reduce_erase os pattern (red : reduction (logged A)) (red' : reduction (tensor A)) sizes : erases_to red red' ->
    both layers_erase (Reduce U os pattern red sizes) (Reduce U os pattern red' sizes).
  Proof. intros H. unfold Reduce. apply both_bind_same. intros _. apply make_erase, H. Qed.
  Lemma Rearrange_erase os pattern sizes : both layers_erase (Rearrange (T := logged A) U os pattern sizes) (Rearrange (T := tensor A) U os pattern sizes).
  Proof. unfold Rearrange. apply both_bind_same. intros _. apply make_erase. constructor. Qed.
  Lemma EinMix_erase os os' pattern wt bt sizes : both mixes_erase (EinMix (T := logged A) U os os' pattern wt bt sizes) (EinMix (T := tensor A) U os os' pattern wt bt sizes).
  Proof.
    unfold EinMix, initialize_einmix. apply both_bind_same. intros _. apply both_bind_same. intros [[[[[lp rp] l] rg] w] next].
    apply (both_bind (fun p q => olayers_erase (fst p) (fst q) /\ olayers_erase (snd p) (snd q))).
    - unfold rearrange_layers. apply (both_bind olayers_erase).
      { destruct (pre_reshape lp l sizes) as [[p ls]|]; [|exact I]. eapply both_bind; [apply Rearrange_erase|]. intros L L' H. exact H. }
      intros o1 o2 H1. apply (both_bind olayers_erase).
      { destruct (post_reshape rp rg) as [p|]; [|exact I]. eapply both_bind; [apply Rearrange_erase|]. intros L L' H. exact H. }
      intros o3 o4 H2. exact (conj H1 H2).
    - intros [p q] [p' q'] [H1 H2]. cbn in H1, H2. repeat (apply both_bind_same; intros ?). repeat split; assumption.
  Qed.
End Erase.

(** *** einsum *)
Section Einsum.
  Context {A : Type} (r : runtime A) (lib : pystr -> list (tensor A) -> result (tensor A)).
  Lemma erase_tensors (l : list (logged A + pystr)) : (let* ts := mapM as_tensor l in Ok (map fst ts)) = mapM as_tensor (map without_log l).
  Proof. induction l as [|[t|s] l IH]; [reflexivity| |reflexivity]. cbn [mapM map without_log as_tensor bind]. rewrite <- IH. destruct (mapM as_tensor l); reflexivity. Qed.
  Lemma removelast_map {X Y} (g : X -> Y) l : removelast (map g l) = map g (removelast l).
  Proof. induction l as [|x [|y l] IH]; [reflexivity|reflexivity|]. cbn [map removelast] in *. rewrite IH. reflexivity. Qed.
  Lemma last_without (l : list (logged A + pystr)) : last (map without_log l) (inr []) = without_log (last l (inr [])).
  Proof. induction l as [|x [|y l] IH]; [reflexivity|reflexivity|]. cbn [map last] in *. exact IH. Qed.
  Lemma erase_einsum args : erase (logged_einsum r lib args) = einsum_with (rt_unicode r) lib (map without_log args).
  Proof.
    unfold logged_einsum, einsum_with, einsum_given. rewrite map_length, last_without, removelast_map.
    destruct (raise_if (length args <=? 1) ValueError); [|reflexivity]. cbn [bind]. destruct (last args (inr [])) as [t|s] eqn:El; [reflexivity|]. cbn [without_log].
    destruct (compactify (rt_unicode r) s) as [c|ex]; [|reflexivity]. cbn [bind].
    assert (G : erase (let* ts := mapM as_tensor (removelast args) in logged_lib_einsum lib c ts) = (let* ts := mapM as_tensor (map without_log (removelast args)) in lib c ts)).
    { rewrite <- erase_tensors. destruct (mapM as_tensor (removelast args)) as [ts|ex]; [|reflexivity]. apply erase_note. }
    destruct (removelast args) as [|[t|s'] l]; [exact G|exact G|reflexivity].
  Qed.
  Lemma new_tensors (l : list (tensor A + pystr)) ts : mapM as_tensor (map with_new l) = Ok ts -> logs ts = [].
  Proof.
    revert ts. induction l as [|[t|s] l IH]; intros ts H; cbn [map with_new mapM as_tensor bind] in H; [injection H as <-; reflexivity| |discriminate].
    apply bind_Ok in H as [ts' [H' H]]. injection H as <-. exact (IH _ H').
  Qed.
  (** the only tensor is the result *)
  Lemma einsum_makes args y log : logged_einsum r lib (map with_new args) = Ok (y, log) -> log = [shp y].
  Proof.
    unfold logged_einsum, einsum_with, einsum_given. intros H. apply bind_Ok in H as [_ [_ H]]. rewrite removelast_map in H. destruct (last (map with_new args) (inr [])) as [t|s]; [discriminate|].
    apply bind_Ok in H as [c [_ H]].
    assert (G : (let* ts := mapM as_tensor (map with_new (removelast args)) in logged_lib_einsum lib c ts) = Ok (y, log)) by (destruct (removelast args) as [|[t|s'] l]; [exact H|exact H|discriminate]).
    apply bind_Ok in G as [ts [Em G]]. apply note_Ok in G as [_ G]. cbn [fst snd] in G. rewrite G, (new_tensors _ _ Em). reflexivity.
  Qed.
End Einsum.

(** *** layers run the steps of a recipe *)
Section Layer.
  Context {A : Type} (r : runtime A).
  Definition layer_runtime : runtime A := match rt_framework r with Torch => with_isf (with_framework r TorchJit) (fun _ => true) | _ => r end.
  Lemma layer_cooked L x y : logged_call_layer r L x = Ok y ->
    exists rec k, logged_recipe_for L x = Ok rec /\ reconstruct int_ops rec (map Z.of_nat (shp (fst x))) (ly_sizes L) = Ok k /\
      apply_cooked (logged_backend layer_runtime) k x (ly_red L) = Ok y.
  Proof.
    unfold logged_call_layer. intros H.
    assert (M : logged_mixin_apply r L x = Ok y -> exists rec k, logged_recipe_for L x = Ok rec /\ reconstruct int_ops rec (map Z.of_nat (shp (fst x))) (ly_sizes L) = Ok k /\
      apply_cooked (logged_backend r) k x (ly_red L) = Ok y).
    { clear H. intros H. unfold logged_mixin_apply in H. apply bind_Ok in H as [rec [E H]]. unfold apply_recipe in H. apply bind_Ok in H as [k [Ek H]]. rewrite lb_shape in Ek. exists rec, k. auto. }
    unfold layer_runtime. destruct (rt_framework r) eqn:Ef; try exact (M H). clear M.
    unfold logged_torch_apply in H. apply bind_Ok in H as [rec [E H]]. unfold logged_scriptable_apply in H. apply bind_Ok in H as [k [Ek H]]. rewrite lb_shape in Ek.
    exists rec, k. split; [exact E|]. split; [exact Ek|]. unfold apply_cooked. apply bind_Ok in H as [t1 [H1 H]]. apply bind_Ok in H as [t2 [H2 H]]. apply bind_Ok in H as [t3 [H3 H]].
    change (match k_init k with Some s => b_reshape (logged_backend (with_framework r TorchJit)) x s | None => Ok x end)
      with (match k_init k with Some s => b_reshape (logged_backend (with_isf (with_framework r TorchJit) (fun _ => true))) x s | None => Ok x end) in H1. rewrite H1. cbn [bind].
    change (match k_reorder k with Some s => b_transpose (logged_backend (with_framework r TorchJit)) t1 s | None => Ok t1 end)
      with (match k_reorder k with Some s => b_transpose (logged_backend (with_isf (with_framework r TorchJit) (fun _ => true))) t1 s | None => Ok t1 end) in H2. rewrite H2. cbn [bind].
    assert (G : match k_reduced k with [] => Ok t2 | _ => reduce_axes (logged_backend (with_isf (with_framework r TorchJit) (fun _ => true))) t2 (ly_red L) (k_reduced k) end = Ok t3).
    { destruct (k_reduced k) as [|a l]; [exact H3|]. destruct (ly_red L) as [s|g]; [|discriminate]. cbn [reduce_axes].
      assert (Es : str_mem s reductions = true).
      { change (logged_torch_jit (with_framework r TorchJit) t2 s (a :: l) = Ok t3) in H3. unfold logged_torch_jit in H3. destruct (str_mem s [lit "min"; lit "max"; lit "sum"; lit "mean"]) eqn:E4.
        - apply str_mem_In in E4. apply str_mem_In. cbn in E4 |- *. tauto.
        - destruct (str_eqb s (lit "prod")) eqn:E'; [|discriminate]. apply str_eqb_eq in E'. subst s. reflexivity. }
      rewrite Es. cbn [negb raise_if bind]. change (b_is_float (logged_backend (with_isf (with_framework r TorchJit) (fun _ => true))) t2) with true.
      rewrite andb_false_r. cbn [raise_if bind]. exact H3. }
    rewrite G. cbn [bind]. destruct (k_added k); exact H.
  Qed.
  Lemma layer_bound L x y : modest (ly_red L) -> logged_call_layer r L x = Ok y -> size (fst x) <> 0 -> grows (Nat.max (size (fst x)) (size (fst y))) x y.
  Proof. intros Hm H. apply layer_cooked in H as (rec & k & _ & _ & H). exact (cooked_grows _ k x _ y Hm H). Qed.

  (** *** a layer that rearranges *)
  Definition moved (m : nat) (x y : logged A) : Prop :=
    exists made, snd y = made ++ snd x /\ length made <= m /\ all_of_size (size (fst x)) made /\ size (fst y) = size (fst x).
  Lemma moved_refl x : moved 0 x x.
  Proof. exists []. split; [reflexivity|]. split; [apply Nat.le_refl|]. split; [intros s []|reflexivity]. Qed.
  Lemma moved_le m n x y : m <= n -> moved m x y -> moved n x y.
  Proof. intros Hl (d & H1 & H2 & H3). exists d. split; [exact H1|]. split; [lia|exact H3]. Qed.
  Lemma moved_trans m n x y z : moved m x y -> moved n y z -> moved (n + m) x z.
  Proof.
    intros (d1 & E1 & L1 & S1 & Z1) (d2 & E2 & L2 & S2 & Z2). exists (d2 ++ d1). rewrite E2, E1, app_assoc. split; [reflexivity|]. rewrite app_length. split; [lia|]. split; [|congruence].
    intros s Hs. apply in_app_or in Hs as [Hs|Hs]; [rewrite (S2 s Hs); exact Z1|exact (S1 s Hs)].
  Qed.
  Lemma note_moved x m y : note (snd x) m = Ok y -> size (fst y) = size (fst x) -> moved 1 x y.
  Proof.
    intros H Hs. apply note_Ok in H as [_ H]. exists [shp (fst y)]. split; [exact H|]. split; [apply Nat.le_refl|]. split; [|exact Hs]. intros s [<-|[]]. exact Hs.
  Qed.
  Lemma opt_moved {X} (o : option X) (f : X -> result (logged A)) x y : (forall a, f a = Ok y -> moved 1 x y) -> match o with Some a => f a | None => Ok x end = Ok y -> moved 1 x y.
  Proof. intros Hf. destruct o; [apply Hf|]. intros H. injection H as <-. apply (moved_le 0); [lia|apply moved_refl]. Qed.
  Lemma cooked_moved (r' : runtime A) k x y : k_added k = [] -> apply_cooked (logged_backend r') k x (RStr s_rearrange) = Ok y -> moved 3 x y.
  Proof.
    intros Ha H. unfold apply_cooked in H. rewrite Ha in H. apply bind_Ok in H as [t1 [H1 H]]. apply bind_Ok in H as [t2 [H2 H]]. apply bind_Ok in H as [t3 [H3 H]]. cbn [bind] in H.
    assert (RS : forall a s b, b_reshape (logged_backend r') a s = Ok b -> moved 1 a b).
    { intros a s b E. rewrite lb_reshape in E. pose proof (reshape_keeps r' a s b E) as [K _]. eapply note_moved; eassumption. }
    assert (TR : forall a s b, b_transpose (logged_backend r') a s = Ok b -> moved 1 a b).
    { intros a s b E. rewrite lb_transpose in E. pose proof (transpose_keeps a s b E) as [K _]. eapply note_moved; eassumption. }
    destruct (k_reduced k); [|discriminate]. injection H3 as <-.
    apply (opt_moved _ _ _ _ (fun s => RS _ s _)) in H1. apply (opt_moved _ _ _ _ (fun s => TR _ s _)) in H2. apply (opt_moved _ _ _ _ (fun s => RS _ s _)) in H.
    exact (moved_trans 2 1 _ _ _ (moved_trans 1 1 _ _ _ H1 H2) H).
  Qed.
  Definition only_moves (L : layer (logged A)) : Prop := ly_red L = RStr s_rearrange /\ forall n rec, dict_get Nat.eqb n (ly_recipes L) = Some rec -> r_added rec = [].
  Lemma layer_moved L x y : only_moves L -> logged_call_layer r L x = Ok y -> moved 3 x y.
  Proof.
    intros [E Ha] H. apply layer_cooked in H as (rec & k & Er & Ek & H). rewrite E in H. apply (cooked_moved layer_runtime k); [|exact H].
    unfold logged_recipe_for in Er. destruct (dict_get Nat.eqb _ (ly_recipes L)) as [rec'|] eqn:Ed; [|discriminate]. injection Er as ->. apply Ha in Ed.
    unfold reconstruct in Ek. apply bind_Ok in Ek as [al [_ Ek]]. apply bind_Ok in Ek as [[al' nd] [_ Ek]]. apply bind_Ok in Ek as [gs [_ Ek]].
    apply bind_Ok in Ek as [ad [Ea Ek]]. rewrite Ed in Ea. cbn in Ea. injection Ea as <-. injection Ek as <-. reflexivity.
  Qed.
  Lemma Rearrange_moves U os pattern sizes L : unicode_ok U -> (forall n, orders_ok (os n)) -> Rearrange U os pattern sizes = Ok L -> only_moves L.
  Proof.
    intros HU Hos H. unfold Rearrange in H. apply bind_Ok in H as [_ [_ H]]. unfold make_layer in H. apply bind_Ok in H as [recipes [H E]]. injection E as <-. split; [reflexivity|]. cbn [ly_recipes].
    apply all_dims_ok in H as (l & rr & _ & H); [|exact HU|exact Hos]. intros n rec. rewrite (prep_get U pattern _ _ os _ recipes n H).
    destruct (in_dec Nat.eq_dec n _); [|discriminate]. destruct (prepare_recipe _ _ _ _ _ _) as [rec'|] eqn:Ep; [|discriminate]. intros X. injection X as ->.
    apply (no_added U HU (os n) (Hos n)) in Ep; [exact Ep|discriminate].
  Qed.
  Definition ooption_moves (L : option (layer (logged A))) : Prop := match L with Some L => only_moves L | None => True end.
  Lemma option_moved L x y : ooption_moves L -> logged_call_option r L x = Ok y -> moved 3 x y.
  Proof. destruct L as [L|]; [apply layer_moved|]. intros _ H. injection H as <-. apply (moved_le 0); [lia|apply moved_refl]. Qed.
  Lemma EinMix_moves U os os' pattern wt bt sizes M : unicode_ok U -> (forall n, orders_ok (os n)) -> (forall n, orders_ok (os' n)) -> EinMix U os os' pattern wt bt sizes = Ok M ->
    ooption_moves (em_pre M) /\ ooption_moves (em_post M).
  Proof.
    intros HU Hos Hos' H. unfold EinMix, initialize_einmix in H. apply bind_Ok in H as [_ [_ H]]. apply bind_Ok in H as [[[[[[lp rp] l] rg] w] next] [_ H]].
    apply bind_Ok in H as [[p q] [E H]]. assert (G : ooption_moves p /\ ooption_moves q).
    { unfold rearrange_layers in E. apply bind_Ok in E as [o1 [E1 E]]. apply bind_Ok in E as [o2 [E2 E]]. injection E as <- <-. split.
      - destruct (pre_reshape lp l sizes) as [[p' ls]|]; [|injection E1 as <-; exact I]. apply bind_Ok in E1 as [L [E1 X]]. injection X as <-. exact (Rearrange_moves U os _ _ _ HU Hos E1).
      - destruct (post_reshape rp rg) as [p'|]; [|injection E2 as <-; exact I]. apply bind_Ok in E2 as [L [E2 X]]. injection X as <-. exact (Rearrange_moves U os' _ _ _ HU Hos' E2). }
    repeat (apply bind_Ok in H as [? [_ H]]). injection H as <-. exact G.
  Qed.
  Lemma mix_made lib iadd os os' pattern wt bt sizes M w b x y log : unicode_ok (rt_unicode r) -> (forall n, orders_ok (os n)) -> (forall n, orders_ok (os' n)) -> keeps_shape iadd ->
    EinMix (rt_unicode r) os os' pattern wt bt sizes = Ok M -> logged_call_einmix r lib iadd M (new w) (option_map new b) (new x) = Ok (y, log) ->
    exists before after, log = after ++ before /\ length before <= 3 /\ 1 <= length after <= 5 /\ all_of_size (size x) before /\ all_of_size (size y) after.
  Proof.
    intros HU Hos Hos' Hi HM H. destruct (EinMix_moves _ _ _ _ _ _ _ _ HU Hos Hos' HM) as [P1 P2]. unfold logged_call_einmix in H.
    apply bind_Ok in H as [i [H1 H]]. apply bind_Ok in H as [z [H2 H]]. apply bind_Ok in H as [z' [H3 H]].
    apply (option_moved _ _ _ P1) in H1 as (d1 & E1 & L1 & S1 & _). cbn [new snd fst] in E1, S1. rewrite app_nil_r in E1.
    unfold logged_lib_einsum in H2. apply note_Ok in H2 as [_ E2]. cbn [logs flat_map new snd] in E2. rewrite !app_nil_r, E1 in E2.
    assert (G : exists d, snd z' = d ++ d1 /\ 1 <= length d <= 2 /\ all_of_size (size (fst z')) d).
    { destruct b as [b|]; cbn [option_map] in H3.
      - unfold logged_iadd in H3. apply note_Ok in H3 as [E3 E4]. cbn [new snd] in E4. rewrite app_nil_r, E2 in E4. cbn [new fst] in E3. apply Hi in E3.
        exists [shp (fst z'); shp (fst z)]. split; [exact E4|]. split; [cbn; lia|]. unfold size. intros s [<-|[<-|[]]]; [reflexivity|rewrite E3; reflexivity].
      - injection H3 as <-. exists [shp (fst z)]. split; [exact E2|]. split; [cbn; lia|]. intros s [<-|[]]. reflexivity. }
    destruct G as (d & E & Ld & Sd). apply (option_moved _ _ _ P2) in H as (d2 & E4 & L4 & S4 & Z4). cbn [fst snd] in E4, Z4. exists d1, (d2 ++ d). rewrite app_length.
    split; [rewrite E4, E, app_assoc; reflexivity|]. split; [exact L1|]. split; [lia|]. split; [exact S1|].
    intros s Hs. rewrite Z4. apply in_app_or in Hs as [Hs|Hs]; [exact (S4 s Hs)|exact (Sd s Hs)].
  Qed.

  (** *** the shapes a layer makes *)
  Lemma layer_shapes os pattern (op : pystr) sizes (M : layer (logged A)) x y log w L R e len : runtime_ok r -> (forall n, orders_ok (os n)) -> NoDup (map fst sizes) ->
    make_layer (rt_unicode r) os pattern (RStr op) sizes = Ok M -> call_ok (rt_unicode r) w pattern sizes (shp x) L R e len -> @runs_as (logged A) (RStr op) w ->
    logged_call_layer r M (new x) = Ok (y, log) -> rev log = shapes_made (manner_of (rt_framework r) op) (left_groups e L) (right_groups e L R) len.
  Proof.
    intros [HU _] Hos Hn HM Hc Hw H. unfold make_layer in HM. apply bind_Ok in HM as [recipes [HM E]]. injection E as <-.
    apply all_dims_ok in HM as (l & rr & _ & HM); [|exact HU|exact Hos].
    assert (G := prep_get (rt_unicode r) pattern (op_of (@RStr (logged A) op)) (map fst sizes) os _ recipes (length (shp x)) HM).
    apply layer_cooked in H as (rec & k & E1 & E2 & H). unfold logged_recipe_for in E1. cbn [ly_recipes ly_sizes ly_red new fst] in E1, E2, H. rewrite G in E1.
    destruct (cooked_known (rt_unicode r) HU (os (length (shp x))) (Hos _) pattern (op_of (@RStr (logged A) op)) sizes (shp x) w L R e len Hn (runs_as_role _ _ Hw) Hc)
      as (rc' & k' & F1 & F2 & K1 & K2 & K3 & K4 & K5 & K6).
    destruct (in_dec Nat.eq_dec (length (shp x)) _) as [_|]; [|discriminate E1]. rewrite F1 in E1. injection E1 as <-. rewrite E2 in F2. injection F2 as <-.
    set (gl := left_groups e L) in *. set (gr := right_groups e L R) in *.
    assert (Run : foldM (perform (logged_backend layer_runtime) (RStr op)) (lib_calls gl gr len) (new x) = Ok (y, log)).
    { etransitivity; [symmetry|exact H]. unfold apply_cooked, lib_calls. rewrite K1, K2, K3, K4, K6. rewrite foldM_app.
      apply bind_eq; [destruct (singles gl); [reflexivity|rewrite foldM_one; reflexivity]|]. intros t1. rewrite foldM_app.
      apply bind_eq; [destruct (list_eq_dec label_eq_dec _ _); [reflexivity|rewrite foldM_one; reflexivity]|]. intros t2. rewrite foldM_app.
      apply bind_eq; [destruct (missing gl gr); [reflexivity|rewrite foldM_one; reflexivity]|]. intros t3. rewrite foldM_app.
      apply bind_eq.
      { destruct (fresh_axes gl gr) as [|n ns] eqn:En; [reflexivity|]. rewrite K5 by discriminate. cbn [map].
        rewrite foldM_one. cbn [perform map]. f_equal. destruct n as [i a]. f_equal. rewrite map_map. apply map_ext. intros [j b]. reflexivity. }
      intros t4. destruct (singles gr); [reflexivity|rewrite foldM_one; reflexivity]. }
    apply all_made in Run; [|symmetry; apply (co_fits _ _ _ _ _ _ _ _ _ Hc)]. unfold made in Run. cbn [snd new] in Run. rewrite app_nil_r in Run. rewrite Run, rev_involutive.
    f_equal. unfold layer_runtime. destruct (rt_framework r) eqn:Ef; rewrite ?Ef; reflexivity.
  Qed.
End Layer.

Section Made.
  Context {A : Type} (r : runtime A).
  Lemma both_weaken {X Y} (P Q : X -> Y -> Prop) m m' : (forall x y, P x y -> Q x y) -> both P m m' -> both Q m m'.
  Proof. intros H. destruct m, m'; cbn; auto. Qed.
  Lemma reduce_layer_same os pattern (red : reduction (logged A)) (red' : reduction (tensor A)) sizes : erases_to red red' ->
    both (fun L L' => forall x, erase (logged_call_layer r L x) = call_layer r L' (fst x)) (Reduce (rt_unicode r) os pattern red sizes) (Reduce (rt_unicode r) os pattern red' sizes).
  Proof. intros H. eapply both_weaken; [|apply Reduce_erase, H]. intros L L' HL x. apply erase_layer, HL. Qed.
  Lemma rearrange_layer_same os pattern sizes :
    both (fun (L : layer (logged A)) L' => forall x, erase (logged_call_layer r L x) = call_layer r L' (fst x)) (Rearrange (rt_unicode r) os pattern sizes) (Rearrange (rt_unicode r) os pattern sizes).
  Proof. eapply both_weaken; [|apply Rearrange_erase]. intros L L' HL x. apply erase_layer, HL. Qed.
  Lemma einmix_same lib iadd os os' pattern wt bt sizes :
    both (fun (M : einmix (logged A)) M' => forall w b x, erase (logged_call_einmix r lib iadd M w b x) = call_einmix r lib iadd M' (fst w) (option_map fst b) (fst x))
      (EinMix (rt_unicode r) os os' pattern wt bt sizes) (EinMix (rt_unicode r) os os' pattern wt bt sizes).
  Proof. eapply both_weaken; [|apply EinMix_erase]. intros M M' HM w b x. apply erase_mix, HM. Qed.
  Lemma Reduce_red (U : unicode) os pattern (red : reduction (logged A)) sizes L : Reduce U os pattern red sizes = Ok L -> ly_red L = red /\ make_layer U os pattern red sizes = Ok L.
  Proof.
    unfold Reduce. intros H. apply bind_Ok in H as [_ [_ H]]. split; [|exact H]. unfold make_layer in H. apply bind_Ok in H as [rec [_ H]]. injection H as <-. reflexivity.
  Qed.
  Lemma reduce_layer_bound os pattern red sizes L (x y : tensor A) log : modest red -> Reduce (rt_unicode r) os pattern red sizes = Ok L -> logged_call_layer r L (new x) = Ok (y, log) -> size x <> 0 ->
    forall s, In s log -> prodn s <= Nat.max (size x) (size y).
  Proof.
    intros Hm HL H Hn s Hs. apply Reduce_red in HL as [<- _]. destruct (layer_bound r L (new x) (y, log) Hm H Hn s Hs) as [[]|G]. exact G.
  Qed.
  Lemma rearrange_layer_made os pattern sizes L (x y : tensor A) log : runtime_ok r -> (forall n, orders_ok (os n)) -> Rearrange (rt_unicode r) os pattern sizes = Ok L ->
    logged_call_layer r L (new x) = Ok (y, log) -> length log <= 3 /\ all_of_size (size x) log /\ size y = size x.
  Proof.
    intros [HU _] Hos HL H. apply (Rearrange_moves _ _ _ _ _ HU Hos) in HL. apply (layer_moved r L _ _ HL) in H as (d & E & G). cbn [snd fst new] in *. rewrite app_nil_r in E. subst d. exact G.
  Qed.
  Lemma any_layer_shapes os pattern (op : pystr) sizes (M : layer (logged A)) x y log w L R e len : runtime_ok r -> (forall n, orders_ok (os n)) -> NoDup (map fst sizes) ->
    Reduce (rt_unicode r) os pattern (RStr op) sizes = Ok M \/ op = s_rearrange /\ Rearrange (rt_unicode r) os pattern sizes = Ok M ->
    call_ok (rt_unicode r) w pattern sizes (shp x) L R e len -> @runs_as (logged A) (RStr op) w ->
    logged_call_layer r M (new x) = Ok (y, log) -> rev log = shapes_made (manner_of (rt_framework r) op) (left_groups e L) (right_groups e L R) len.
  Proof.
    intros Hr Hos Hn HM. assert (HM' : make_layer (rt_unicode r) os pattern (RStr op) sizes = Ok M).
    { destruct HM as [HM|[-> HM]]; [apply (Reduce_red _ _ _ _ _ _ HM)|]. unfold Rearrange in HM. apply bind_Ok in HM as [_ [_ HM]]. exact HM. }
    apply (layer_shapes r os pattern op sizes M x y log w L R e len Hr Hos Hn HM').
  Qed.
End Made.
