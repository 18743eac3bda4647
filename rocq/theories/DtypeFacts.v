(** * Element types: proofs *)
From Verif Require Import Py Tensor ListFacts TensorFacts SpecSem SpecGrammar SpecPattern SpecOps SpecDtypes Parsing Recipe Ops Backends Api Packing Dtypes FrontFacts2 MainFacts3 ApiFacts CallsFacts.

Section Facts.
  Context {A : Type} (rules : type_rules) (r : runtime A).
  Notation B := (rt_backend r).
  Notation BT := (typed_backend rules r).
  Notation f := (rt_framework r).

  Lemma forget_same d (m : result (tensor A)) : forget (same_type d m) = m.
  Proof. destruct m; reflexivity. Qed.
  Lemma same_inv d (m : result (tensor A)) y : same_type d m = Ok y -> ty_dtype y = d /\ m = Ok (ty_val y).
  Proof. destruct m as [t|]; [|discriminate]. cbn. intros H. injection H as <-. auto. Qed.

  Let rd d := with_isf r (fun _ => is_float_type rules f d).

  Lemma cooked_forget (k : cooked Z) x red red' : forgets_to red red' ->
    forget (apply_cooked BT k x red) = apply_cooked (rt_backend (rd (ty_dtype x))) k (ty_val x) red'.
  Proof.
    intros HR. set (d := ty_dtype x). unfold apply_cooked.
    assert (E1 : forall t s, b_reshape (rt_backend (rd d)) t s = b_reshape B t s) by (intros; unfold rt_backend; cbn; destruct f; reflexivity).
    assert (E2 : forall t s, b_transpose (rt_backend (rd d)) t s = b_transpose B t s) by (intros; unfold rt_backend; cbn; destruct f; reflexivity).
    assert (E3 : forall t s l, b_reduce (rt_backend (rd d)) t s l = b_reduce B t s l) by (intros; unfold rt_backend; cbn; destruct f; reflexivity).
    assert (E4 : forall t n l, b_add_axes (rt_backend (rd d)) t n l = b_add_axes B t n l) by (intros; unfold rt_backend; cbn; destruct f; reflexivity).
    assert (E5 : forall t, b_is_float (rt_backend (rd d)) t = is_float_type rules f d) by (intros; unfold rt_backend, rd; cbn; destruct f; reflexivity).
    assert (S1 : match k_init k with Some s => b_reshape BT x s | None => Ok x end = same_type d (match k_init k with Some s => b_reshape B (ty_val x) s | None => Ok (ty_val x) end)).
    { destruct (k_init k); [reflexivity|]. destruct x; reflexivity. }
    rewrite S1. replace (match k_init k with Some s => b_reshape (rt_backend (rd d)) (ty_val x) s | None => Ok (ty_val x) end)
      with (match k_init k with Some s => b_reshape B (ty_val x) s | None => Ok (ty_val x) end) by (destruct (k_init k); rewrite ?E1; reflexivity).
    destruct (match k_init k with Some s => b_reshape B (ty_val x) s | None => Ok (ty_val x) end) as [t1|ex]; [|reflexivity]. cbn [same_type bind].
    assert (S2 : match k_reorder k with Some p => b_transpose BT (mkTy d t1) p | None => Ok (mkTy d t1) end = same_type d (match k_reorder k with Some p => b_transpose B t1 p | None => Ok t1 end)).
    { destruct (k_reorder k); reflexivity. }
    rewrite S2. replace (match k_reorder k with Some p => b_transpose (rt_backend (rd d)) t1 p | None => Ok t1 end)
      with (match k_reorder k with Some p => b_transpose B t1 p | None => Ok t1 end) by (destruct (k_reorder k); rewrite ?E2; reflexivity).
    destruct (match k_reorder k with Some p => b_transpose B t1 p | None => Ok t1 end) as [t2|ex]; [|reflexivity]. cbn [same_type bind].
    assert (S3 : forget (match k_reduced k with [] => Ok (mkTy d t2) | _ => reduce_axes BT (mkTy d t2) red (k_reduced k) end) =
                 match k_reduced k with [] => Ok t2 | _ => reduce_axes (rt_backend (rd d)) t2 red' (k_reduced k) end).
    { destruct (k_reduced k) as [|a l]; [reflexivity|]. destruct HR as [s|g h Hg]; cbn [reduce_axes].
      - destruct (raise_if (negb (str_mem s reductions)) AssertionError); [|reflexivity]. cbn [bind]. rewrite E5. cbn [b_is_float typed_backend ty_dtype].
        destruct (raise_if (str_eqb s (lit "mean") && negb (is_float_type rules f d)) NotImplementedError); [|reflexivity]. cbn [bind]. rewrite E3. apply forget_same.
      - apply Hg. }
    revert S3. generalize (match k_reduced k with [] => Ok (mkTy d t2) | _ => reduce_axes BT (mkTy d t2) red (k_reduced k) end).
    generalize (match k_reduced k with [] => Ok t2 | _ => reduce_axes (rt_backend (rd d)) t2 red' (k_reduced k) end).
    intros m' m E. destruct m as [[d3 t3]|ex]; cbn in E; subst m'; [|reflexivity]. cbn [bind].
    assert (S4 : match k_added k with [] => Ok (mkTy d3 t3) | _ => b_add_axes BT (mkTy d3 t3) (k_naxes k) (k_added k) end =
                 same_type d3 (match k_added k with [] => Ok t3 | _ => b_add_axes B t3 (k_naxes k) (k_added k) end)) by (destruct (k_added k); reflexivity).
    rewrite S4. replace (match k_added k with [] => Ok t3 | _ => b_add_axes (rt_backend (rd d)) t3 (k_naxes k) (k_added k) end)
      with (match k_added k with [] => Ok t3 | _ => b_add_axes B t3 (k_naxes k) (k_added k) end) by (destruct (k_added k); rewrite ?E4; reflexivity).
    destruct (match k_added k with [] => Ok t3 | _ => b_add_axes B t3 (k_naxes k) (k_added k) end) as [t4|ex]; [|reflexivity]. cbn [same_type bind].
    destruct (k_final k); [|reflexivity]. rewrite E1. apply forget_same.
  Qed.

  Lemma op_forget (red : reduction (typed A)) red' : forgets_to red red' -> op_of red = op_of red'.
  Proof. intros [|]; reflexivity. Qed.

  Lemma shape_rd d t : b_shape (rt_backend (rd d)) t = b_shape B t.
  Proof. unfold rt_backend. cbn. destruct f; reflexivity. Qed.
  Lemma stack_rd d ts : b_stack (rt_backend (rd d)) ts = b_stack B ts.
  Proof. unfold rt_backend. cbn. destruct f; reflexivity. Qed.

  Lemma reduce_forget x pattern red red' sizes d : forgets_to red red' -> type_of_input rules x d ->
    forget (ty_reduce rules r x pattern red sizes) = reduce (rd d) (forget_input x) pattern red' sizes.
  Proof.
    intros HR HT. unfold ty_reduce, reduce, api_reduce. destruct (check_kwargs reserved_kwargs sizes) as [[]|ex]; [|reflexivity]. cbn [bind].
    assert (S : stack_input BT x = same_type d (stack_input (rt_backend (rd d)) (forget_input x))).
    { destruct HT as [x|xs d Hd]; [destruct x; reflexivity|]. cbn [forget_input]. destruct xs as [|x xs]; [reflexivity|]. cbn [stack_input map]. rewrite stack_rd.
      cbn [b_stack typed_backend]. destruct (b_stack B (map ty_val (x :: xs))) as [t|ex] eqn:E; cbn [map] in E; rewrite E; [|reflexivity]. cbn [bind].
      cbn [map] in Hd |- *. rewrite Hd. reflexivity. }
    rewrite S. destruct (stack_input (rt_backend (rd d)) (forget_input x)) as [t|ex]; [|reflexivity]. cbn [same_type bind].
    cbn [b_shape typed_backend ty_val]. rewrite shape_rd, (op_forget _ _ HR). change (rt_unicode (rd d)) with (rt_unicode r). change (rt_orders (rd d)) with (rt_orders r).
    destruct (prepare_recipe _ _ pattern (op_of red') (map fst sizes) _) as [rc|ex]; [|reflexivity]. cbn [bind].
    unfold apply_recipe. cbn [b_shape typed_backend ty_val]. rewrite shape_rd. destruct (reconstruct int_ops rc _ sizes) as [k|ex]; [|reflexivity]. cbn [bind].
    apply (cooked_forget k (mkTy d t) red red' HR).
  Qed.

  (** *** the type of the result *)
  Lemma cooked_type (k : cooked Z) x s y : apply_cooked BT k x (RStr s) = Ok y ->
    ty_dtype y = match k_reduced k with [] => ty_dtype x | _ => reduced_type rules f s (k_reduced k) (ty_dtype x) end.
  Proof.
    unfold apply_cooked. intros H.
    apply bind_Ok in H as [t1 [H1 H]]. apply bind_Ok in H as [t2 [H2 H]]. apply bind_Ok in H as [t3 [H3 H]]. apply bind_Ok in H as [t4 [H4 H]].
    assert (D1 : ty_dtype t1 = ty_dtype x) by (destruct (k_init k); [apply same_inv in H1 as [H1 _]; auto|congruence]).
    assert (D2 : ty_dtype t2 = ty_dtype t1) by (destruct (k_reorder k); [apply same_inv in H2 as [H2 _]; auto|congruence]).
    assert (D4 : ty_dtype t4 = ty_dtype t3) by (destruct (k_added k); [congruence|apply same_inv in H4 as [H4 _]; auto]).
    assert (D5 : ty_dtype y = ty_dtype t4) by (destruct (k_final k); [apply same_inv in H as [H _]; auto|congruence]).
    rewrite D5, D4. destruct (k_reduced k) as [|a l]; [injection H3 as <-; congruence|]. cbn [reduce_axes] in H3.
    apply bind_Ok in H3 as [? [_ H3]]. apply bind_Ok in H3 as [? [_ H3]]. apply same_inv in H3 as [H3 _]. rewrite H3, D2, D1. reflexivity.
  Qed.
End Facts.

Section Calls.
  Context {A : Type} (rules : type_rules) (r : runtime A) (Hok : runtime_ok r).
  Notation BT := (typed_backend rules r).
  Notation f := (rt_framework r).

  (** *** rearrange and repeat keep the type *)
  Lemma stack_type x t : stack_input BT x = Ok t -> type_of_input rules x (ty_dtype t).
  Proof.
    destruct x as [x|[|x xs]]; cbn [stack_input]; [intros H; injection H as ->; constructor|discriminate|]. cbn [b_stack typed_backend]. intros H.
    apply bind_Ok in H as [v [_ H]]. apply bind_Ok in H as [d [H1 H]]. injection H as <-. constructor. exact H1.
  Qed.
  Lemma keeps_type x pattern s sizes y : str_mem s reductions = false -> ty_reduce rules r x pattern (RStr s) sizes = Ok y -> type_of_input rules x (ty_dtype y).
  Proof.
    intros Hs H. unfold ty_reduce, api_reduce in H. apply bind_Ok in H as [? [_ H]]. apply bind_Ok in H as [t [Ht H]]. apply bind_Ok in H as [rc [_ H]].
    apply bind_Ok in H as [k [_ H]]. assert (H0 := H). apply cooked_type in H. destruct (k_reduced k) as [|a l] eqn:E; [rewrite H; apply stack_type; exact Ht|].
    exfalso. unfold apply_cooked in H0. apply bind_Ok in H0 as [t1 [_ H0]]. apply bind_Ok in H0 as [t2 [_ H0]]. rewrite E in H0. cbn [reduce_axes] in H0. rewrite Hs in H0. discriminate.
  Qed.

  Lemma forget_Ok (m : result (typed A)) y : m = Ok y -> forget m = Ok (ty_val y).
  Proof. intros ->. reflexivity. Qed.
  Lemma forget_Err (m : result (typed A)) ex : forget m = Err ex -> m = Err ex.
  Proof. destruct m; cbn; [discriminate|]. intros H. injection H as <-. reflexivity. Qed.
  Lemma with_ok isf : runtime_ok (with_isf r isf).
  Proof. destruct Hok as [H1 H2]. split; assumption. Qed.

  (** *** the type after a reduction *)
  Lemma reduced_call x pattern s sizes y L R e len : NoDup (map fst sizes) -> builtin s ->
    call_ok (rt_unicode r) Reducing pattern sizes (shp (ty_val x)) L R e len ->
    ty_reduce rules r (One x) pattern (RStr s) sizes = Ok y ->
    ty_dtype y = match missing (left_groups e L) (right_groups e L R) with
                 | [] => ty_dtype x
                 | m => if one_by_one f s then Nat.iter (length m) (tr_reduced rules s) (ty_dtype x) else tr_reduced rules s (ty_dtype x)
                 end.
  Proof.
    intros Hn Hb Hc H. unfold ty_reduce, api_reduce in H. apply bind_Ok in H as [? [_ H]]. cbn [stack_input bind] in H. apply bind_Ok in H as [rc [E1 H]].
    apply bind_Ok in H as [k [E2 H]]. apply cooked_type in H. cbn [b_shape typed_backend] in E1, E2.
    assert (Es : b_shape (rt_backend r) (ty_val x) = map Z.of_nat (shp (ty_val x))) by (unfold rt_backend; destruct f; reflexivity).
    rewrite Es in E1, E2. rewrite map_length in E1.
    assert (Hr : op_role (OpStr s) = Some Reducing) by (unfold builtin in Hb; repeat (destruct Hb as [<-|Hb]; [reflexivity|]); destruct Hb).
    destruct (cooked_known (rt_unicode r) (ro_unicode _ Hok) (rt_orders r) (ro_orders _ Hok) pattern (OpStr s) sizes (shp (ty_val x)) Reducing L R e len Hn Hr Hc)
      as (rc' & k' & F1 & F2 & _ & _ & Kd & _). cbn [op_of] in E1. rewrite E1 in F1. injection F1 as <-. rewrite E2 in F2. injection F2 as <-. rewrite H, Kd.
    destruct (missing (left_groups e L) (right_groups e L R)) as [|a m]; [reflexivity|]. cbn [length seq]. unfold reduced_type. cbn [length]. rewrite seq_length. reflexivity.
  Qed.

  (** *** means *)
  Lemma mean_typed x pattern sizes L R e len : NoDup (map fst sizes) -> wf (ty_val x) -> no_reserved sizes ->
    call_ok (rt_unicode r) Reducing pattern sizes (shp (ty_val x)) L R e len ->
    let gl := left_groups e L in let gr := right_groups e L R in
    (missing gl gr = [] -> exists y, ty_reduce rules r (One x) pattern (RStr (lit "mean")) sizes = Ok y /\ ty_dtype y = ty_dtype x /\ moves gl gr len (ty_val x) (ty_val y)) /\
    (missing gl gr <> [] -> is_float_type rules f (ty_dtype x) = false -> ty_reduce rules r (One x) pattern (RStr (lit "mean")) sizes = Err NotImplementedError) /\
    (is_float_type rules f (ty_dtype x) = true ->
       forget (ty_reduce rules r (One x) pattern (RStr (lit "mean")) sizes) = reduce (with_isf r (fun _ => true)) (One (ty_val x)) pattern (RStr (lit "mean")) sizes).
  Proof.
    intros Hn Hw Hres Hc gl gr. assert (V := reduce_forget rules r (One x) pattern (RStr (lit "mean")) (RStr (lit "mean")) sizes _ (F_str _) (TI_one rules x)). cbn [forget_input] in V.
    split; [|split].
    - intros D. set (isf := fun _ : tensor A => is_float_type rules f (ty_dtype x)) in *.
      destruct (api_moves_ex (rt_unicode r) (ro_unicode _ Hok) (rt_orders r) (ro_orders r Hok) (rt_lib r) (rt_red r) isf (rt_num r) f (ty_val x) pattern sizes Hn Hw Hres (RStr (lit "mean")) Reducing L R e len eq_refl Hc D) as [y [E M]].
      unfold reduce, rt_backend in V. cbn [with_isf rt_unicode rt_orders rt_framework rt_lib rt_red rt_isf rt_num] in V. rewrite E in V.
      destruct (ty_reduce rules r (One x) pattern (RStr (lit "mean")) sizes) as [z|ex] eqn:Ez; [|discriminate]. cbn in V. injection V as V. exists z. split; [reflexivity|].
      split; [|rewrite V; exact M]. apply (reduced_call x pattern (lit "mean") sizes z L R e len Hn) in Ez; [|cbv; tauto|exact Hc]. fold gl gr in Ez. rewrite D in Ez. exact Ez.
    - intros D Hf. apply forget_Err. rewrite V. apply (reduce_mean_refused _ (with_ok _) _ _ _ L R e len); auto.
    - intros Hf. rewrite V, Hf. reflexivity.
  Qed.

  (** *** pack and unpack *)
  Lemma mapM_typed {X} (g : X -> result (typed A)) (h : X -> result (tensor A)) l : (forall a, forget (g a) = h a) ->
    (let* ts := mapM g l in Ok (map ty_val ts)) = mapM h l.
  Proof.
    intros H. induction l as [|a l IH]; [reflexivity|]. cbn [mapM]. rewrite <- H. destruct (g a) as [y|ex]; [|reflexivity]. cbn [forget bind].
    rewrite <- IH. destruct (mapM g l) as [ys|ex]; reflexivity.
  Qed.
  Lemma unpack_typed x packed pattern :
    (let* ts := ty_unpack rules r x packed pattern in Ok (map ty_val ts)) = unpack r (ty_val x) packed pattern /\
    (forall ts, ty_unpack rules r x packed pattern = Ok ts -> Forall (fun t => ty_dtype t = ty_dtype x) ts).
  Proof.
    unfold ty_unpack, unpack, unpack_with, unpack_given. cbn [b_shape typed_backend].
    destruct (analyze_pattern (rt_unicode r) pattern) as [[[n m] k]|ex]; [|split; [reflexivity|discriminate]]. cbn [bind].
    destruct (raise_if (negb (length (b_shape (rt_backend r) (ty_val x)) =? n + 1 + m)) EinopsError); [|split; [reflexivity|discriminate]]. cbn [bind].
    destruct (raise_if (1 <? length (filter (fun x0 => (x0 =? -1)%Z) (composed_lengths packed))) EinopsError); [|split; [reflexivity|discriminate]]. cbn [bind].
    destruct (list_get (b_shape (rt_backend r) (ty_val x)) n) as [q|ex]; [|split; [reflexivity|discriminate]]. cbn [bind].
    destruct (split_positions q (composed_lengths packed)) as [sp|ex]; [|split; [reflexivity|discriminate]]. cbn [bind].
    set (g := fun '(i, element_shape) => _). set (h := fun '(i, element_shape) => _).
    assert (E : forall a, forget (g a) = h a).
    { intros [i s]. unfold g, h. destruct (list_get sp i) as [lo|]; [|reflexivity]. cbn [bind]. destruct (list_get sp (i + 1)) as [hi|]; [|reflexivity]. cbn [bind b_slice b_reshape typed_backend].
      destruct (b_slice (rt_backend r) (ty_val x) n lo hi); [|reflexivity]. cbn [same_type bind ty_val ty_dtype]. apply forget_same. }
    assert (Y : forall a t, g a = Ok t -> ty_dtype t = ty_dtype x).
    { intros [i s] t. unfold g. intros H. apply bind_Ok in H as [? [_ H]]. apply bind_Ok in H as [? [_ H]]. apply bind_Ok in H as [p [H1 H]].
      cbn [b_slice b_reshape typed_backend] in *. apply same_inv in H as [H _]. apply same_inv in H1 as [H1 _]. congruence. }
    split.
    - rewrite <- (mapM_typed g h _ E). destruct (mapM g (enumerate packed)); reflexivity.
    - destruct (mapM g (enumerate packed)) as [ts|ex] eqn:Em; [|discriminate]. intros ts' H. injection H as <-. clear -Em Y. revert ts Em.
      induction (enumerate packed) as [|a l IH]; intros ts Em; cbn [mapM] in Em; [injection Em as <-; constructor|].
      apply bind_Ok in Em as [t [H1 Em]]. apply bind_Ok in Em as [ts' [H2 Em]]. injection Em as <-. constructor; eauto.
  Qed.

  Lemma pack_typed xs pattern d : tr_common rules (map ty_dtype xs) = Ok d ->
    (let* (t, ps) := ty_pack rules r xs pattern in Ok (ty_val t, ps)) = pack r (map ty_val xs) pattern /\
    (forall t ps, ty_pack rules r xs pattern = Ok (t, ps) -> ty_dtype t = d).
  Proof.
    intros Hd. unfold ty_pack, pack, pack_with, pack_given.
    destruct (analyze_pattern (rt_unicode r) pattern) as [[[n m] k]|ex]; [|split; [reflexivity|discriminate]]. cbn [bind].
    rewrite nth_error_map. destruct (nth_error xs 0) as [x0|]; [|split; [reflexivity|discriminate]]. cbn [of_option option_map bind].
    set (g := fun '(reshaped, packed_shapes) tensor => _). set (h := fun '(reshaped, packed_shapes) tensor => _).
    assert (S : forall l acc ps, (let* (ts, qs) := foldM g l (acc, ps) in Ok (map ty_val ts, qs)) = foldM h (map ty_val l) (map ty_val acc, ps) /\
      (forall ts qs, foldM g l (acc, ps) = Ok (ts, qs) -> map ty_dtype ts = map ty_dtype acc ++ map ty_dtype l)).
    { induction l as [|x l IH]; intros acc ps; [split; [reflexivity|]; cbn; intros ts qs H; injection H as <- <-; rewrite app_nil_r; reflexivity|].
      cbn [foldM map]. unfold g at 1 3, h at 1. cbn [b_shape b_reshape typed_backend].
      destruct (raise_if (length (b_shape (rt_backend r) (ty_val x)) <? k) EinopsError); [|split; [reflexivity|discriminate]]. cbn [bind].
      destruct (b_reshape (rt_backend r) (ty_val x) _) as [t|ex]; [|split; [reflexivity|discriminate]]. cbn [same_type bind].
      destruct (IH (acc ++ [mkTy (ty_dtype x) t]) (ps ++ [skipn n (firstn (length (b_shape (rt_backend r) (ty_val x)) - m) (b_shape (rt_backend r) (ty_val x)))])) as [I1 I2].
      rewrite map_app in I1. cbn [map ty_val] in I1. split; [exact I1|]. intros ts qs H. apply I2 in H. rewrite H, map_app. cbn [map ty_dtype]. rewrite <- app_assoc. reflexivity. }
    destruct (S xs [] []) as [S1 S2]. cbn [map app] in S1, S2. rewrite <- S1. destruct (foldM g xs ([], [])) as [[ts qs]|ex]; [|split; [reflexivity|discriminate]]. cbn [bind].
    specialize (S2 ts qs eq_refl). cbn [b_concat typed_backend]. rewrite S2, Hd. destruct (b_concat (rt_backend r) (map ty_val ts) n) as [t|ex]; [|split; [reflexivity|discriminate]]. cbn [bind].
    split; [reflexivity|]. intros t' ps' H. injection H as <- _. reflexivity.
  Qed.
End Calls.

(** *** the tables *)
Lemma str_eqb_firstn x s : str_eqb x (firstn (length x) s) = true <-> exists b, s = x ++ b.
Proof.
  rewrite str_eqb_eq. split.
  - intros H. exists (skipn (length x) s). rewrite H at 1. symmetry. apply firstn_skipn.
  - intros [b ->]. rewrite firstn_app, Nat.sub_diag, firstn_all, app_nil_r. reflexivity.
Qed.
Lemma str_contains_iff x s : str_contains x s = true <-> exists a b, s = a ++ x ++ b.
Proof.
  induction s as [|c s IH]; cbn [str_contains]; rewrite orb_true_iff, str_eqb_firstn; [|rewrite IH]; split.
  - intros [[b H]|H]; [exists [], b; exact H|discriminate].
  - intros [a [b H]]. left. destruct a as [|? a]; [eauto|discriminate].
  - intros [[b H]|[a [b H]]]; [exists [], b; exact H|exists (c :: a), b; cbn; congruence].
  - intros [[|c' a] [b H]]; [left; eauto|]. right. cbn in H. injection H as _ H. eauto.
Qed.
Lemma float_table rules d :
  (forall f, In f [Numpy; Jax; Cupy; Tensorflow] -> (is_float_type rules f d = true <-> In d [lit "float16"; lit "float32"; lit "float64"; lit "float128"; lit "bfloat16"])) /\
  (forall f, In f [Torch; TorchJit] -> (is_float_type rules f d = true <-> In d [lit "float16"; lit "float32"; lit "float64"; lit "bfloat16"])) /\
  (forall f, In f [Oneflow; Paddle] -> (is_float_type rules f d = true <-> In d [lit "float16"; lit "float32"; lit "float64"])) /\
  (is_float_type rules Keras d = true <-> exists a b, d = a ++ lit "float" ++ b) /\
  (forall f, In f [Tinygrad; Pytensor] -> is_float_type rules f d = tr_float rules d).
Proof.
  split; [|split; [|split; [|split]]].
  - intros f [<-|[<-|[<-|[<-|[]]]]]; apply str_mem_In.
  - intros f [<-|[<-|[]]]; apply str_mem_In.
  - intros f [<-|[<-|[]]]; apply str_mem_In.
  - apply str_contains_iff.
  - intros f [<-|[<-|[]]]; reflexivity.
Qed.
