(** * The properties of the functions in their final form *)
From Verif Require Import Py Tensor ListFacts TensorFacts SpecSem SpecGrammar SpecPattern SpecOps Parsing Compile Recipe Ops Backends Api StepFacts ParseFacts ParseFacts2 ParseFacts3 RecipeFacts InferFacts ApplyFacts FrontFacts FrontFacts2 FrontFacts3 MainFacts MainFacts2 ReduceFacts MainFacts3 CallFacts RelabelFacts Laws ApiFacts ApiFacts2 ApiFacts3 ApiFacts4 ApiFacts5.

Lemma builtin_mem s : builtin s <-> str_mem s reductions = true.
Proof.
  unfold builtin, str_mem, reductions. rewrite existsb_exists. split.
  - intros H. exists s. split; auto. unfold str_eqb. destruct (str_eq_dec s s); congruence.
  - intros [x [H E]]. unfold str_eqb in E. destruct (str_eq_dec s x); [subst; auto|discriminate].
Qed.

Section Final.
  Context {A : Type} (r : runtime A) (Hok : runtime_ok r).
  Notation U := (rt_unicode r).
  Notation f := (rt_framework r).
  Implicit Types (x y z : tensor A) (pattern : pystr) (sizes : list (pystr * Z)).
  Let HU : unicode_ok U := ro_unicode r Hok.
  Let Ho : orders_ok (rt_orders r) := ro_orders r Hok.

  (** *** C02 *)
  Lemma rearrange_permutes_list ts pattern sizes y : NoDup (map fst sizes) -> (forall t, In t ts -> wf t) ->
    rearrange r (Many ts) pattern sizes = Ok y -> Permutation (flat_map dat ts) (dat y).
  Proof.
    intros Hnd Hw H. unfold rearrange, api_rearrange in H. rewrite api_many in H.
    apply bind_Ok in H as [u [Hu H]]. apply bind_Ok in H as [t [Ht H]].
    assert (Hs : t_stack ts = Ok t).
    { destruct ts; [discriminate|]. rewrite <- Ht. unfold rt_backend. destruct f; reflexivity. }
    destruct (stack_inv ts t Hs) as [Hne [s Hsh]].
    destruct (stack_Ok ts s Hne) as [t' [E [W _]]]; [intros t' Ht'; split; auto|].
    assert (t' = t) as -> by congruence.
    rewrite <- (stack_data ts t Hs). eapply (rearrange_permutes r Hok t pattern sizes y); eauto.
  Qed.

  (** *** C03 *)
  Lemma reduce_meaning x pattern s sizes y : NoDup (map fst sizes) -> wf x -> builtin s -> reduction_fits r s ->
    reduce r (One x) pattern (RStr s) sizes = Ok y ->
    exists L R e len, only_reading U Reducing pattern sizes (shp x) L R e len /\
      let gl := left_groups e L in let gr := right_groups e L R in
      (missing gl gr = [] -> moves gl gr len x y) /\
      (missing gl gr <> [] -> reduces (rt_red r s) gl gr len x y).
  Proof. intros Hn Hw Hb Hf. apply builtin_mem in Hb. apply reduce_reduces; auto. Qed.

  Lemma reduce_acceptance x pattern s sizes : NoDup (map fst sizes) -> wf x -> builtin s -> reduction_fits r s -> float_if_mean r s ->
    ((exists y, reduce r (One x) pattern (RStr s) sizes = Ok y) <->
     no_reserved sizes /\ exists L R e len, call_ok U Reducing pattern sizes (shp x) L R e len /\
       let gl := left_groups e L in let gr := right_groups e L R in
       (missing gl gr <> [] -> has_reduction f s = true /\
          forall ix, within len ix (concat gr) -> exists vs v,
            elements x len gl (missing gl gr) ix = map Some vs /\ rt_red r s vs = Ok v)).
  Proof. intros Hn Hw Hb Hf Hm. apply builtin_mem in Hb. apply reduce_accepts; auto. Qed.

  Lemma unknown_reduction (x : input (tensor A)) pattern s sizes : ~ builtin s -> s <> lit "rearrange" -> s <> lit "repeat" ->
    exists ex, reduce r x pattern (RStr s) sizes = Err ex.
  Proof.
    intros Hb H1 H2. unfold reduce, api_reduce.
    destruct (check_kwargs reserved_kwargs sizes) as [u|e0]; cbn [bind]; [|eauto].
    destruct (stack_input (rt_backend r) x) as [t|e0]; cbn [bind]; [|eauto].
    destruct (prepare_recipe U (rt_orders r) pattern (op_of (RStr s)) (map fst sizes) (length (b_shape (rt_backend r) t))) as [rc|e0] eqn:E; cbn [bind]; [|eauto].
    exfalso. apply (prepare_closed U HU (rt_orders r) Ho) in E as [L [R [e [w [_ [Hw _]]]]]].
    cbn [op_of op_role] in Hw. unfold str_eqb in Hw. destruct (str_eq_dec s s_rearrange) as [->|]; [apply H1; reflexivity|].
    destruct (str_eq_dec s s_repeat) as [->|]; [apply H2; reflexivity|].
    destruct (str_mem s reductions) eqn:Em; [|discriminate]. apply Hb, builtin_mem; auto.
  Qed.

  (** *** C07 *)
  Lemma reduce_repeat_back x y z p p' s s' op L R e len : NoDup (map fst s) -> NoDup (map fst s') -> wf x ->
    repeat_sizes_ok r p s -> builtin op -> reduction_fits r op -> idempotent_on_copies (rt_red r op) ->
    repeat_ r (One x) p s = Ok y -> reduce r (One y) p' (RStr op) s' = Ok z ->
    reads U p L R -> reads U p' R L -> rank_fits L (length (shp x)) e ->
    fits len (left_groups e L) (right_groups e L R) (shp x) s ->
    fits len (left_groups e R) (right_groups e R L) (shp y) s' ->
    positive_new (left_groups e L) (right_groups e L R) len -> z = x.
  Proof. intros H1 H2 H3 H4 H5. apply builtin_mem in H5. intros H6. eapply reduce_of_repeat; eauto. Qed.

  Lemma reduce_repeat_back_total x y p p' s s' op L R e len : NoDup (map fst s) -> wf x ->
    repeat_sizes_ok r p s -> builtin op -> reduction_fits r op -> float_if_mean r op ->
    has_reduction f op = true -> idempotent_on_copies (rt_red r op) ->
    repeat_ r (One x) p s = Ok y ->
    reads U p L R -> reads U p' R L -> rank_fits L (length (shp x)) e ->
    fits len (left_groups e L) (right_groups e L R) (shp x) s ->
    positive_new (left_groups e L) (right_groups e L R) len ->
    plain L -> plain R -> ~ grouped_dots R -> gives_all R L len s' -> no_reserved s' ->
    reduce r (One y) p' (RStr op) s' = Ok x.
  Proof. intros H1 H2 H3 H4. apply builtin_mem in H4. intros. eapply reduce_of_repeat_total; eauto. Qed.

  (** *** C09 *)
  Lemma reduce_failures x pattern s sizes ex : NoDup (map fst sizes) -> wf x -> nonneg sizes -> builtin s -> reduction_fits r s ->
    reduce r (One x) pattern (RStr s) sizes = Err ex ->
    (ex = TypeError /\ ~ no_reserved sizes) \/ listed_failure U pattern sizes ex \/
    (ex = NotImplementedError /\ (has_reduction f s = false \/ s = lit "mean" /\ exists t, rt_isf r t = false)) \/
    (exists vs, rt_red r s vs = Err ex).
  Proof. intros H1 H2 H3 H4. apply builtin_mem in H4. intros H5 H6. apply (reduce_fails r Hok x); auto. Qed.

  (** *** C10, C12 *)
  Lemma any_order o' (x : input (tensor A)) pattern rd sizes sizes' : orders_ok o' -> NoDup (map fst sizes) -> Permutation sizes sizes' ->
    reduce r x pattern rd sizes = reduce (with_orders r o') x pattern rd sizes' /\
    xp_reduce_ r x pattern rd sizes = xp_reduce_ (with_orders r o') x pattern rd sizes'.
  Proof.
    intros Ho' Hn Hp. split; [apply (api_inv U HU)|apply (aa_inv U HU)]; auto.
  Qed.

  Definition same_calls (r1 r2 : runtime A) (sizes1 sizes2 : list (pystr * Z)) : Prop :=
    forall (x : input (tensor A)) pattern,
      rearrange r1 x pattern sizes1 = rearrange r2 x pattern sizes2 /\
      repeat_ r1 x pattern sizes1 = repeat_ r2 x pattern sizes2 /\
      (forall red, reduce r1 x pattern red sizes1 = reduce r2 x pattern red sizes2) /\
      xp_rearrange r1 x pattern sizes1 = xp_rearrange r2 x pattern sizes2 /\
      xp_repeat r1 x pattern sizes1 = xp_repeat r2 x pattern sizes2 /\
      (forall red, xp_reduce_ r1 x pattern red sizes1 = xp_reduce_ r2 x pattern red sizes2).

  Lemma orders_irrelevant o' sizes : orders_ok o' -> NoDup (map fst sizes) -> same_calls r (with_orders r o') sizes sizes.
  Proof.
    intros Ho' Hn x pattern. repeat split; intros; apply any_order; auto; apply Permutation_refl.
  Qed.

  Lemma sizes_order_irrelevant sizes sizes' : NoDup (map fst sizes) -> Permutation sizes sizes' -> same_calls r r sizes sizes'.
  Proof.
    intros Hn Hp x pattern. assert (E : with_orders r (rt_orders r) = r) by (destruct r; reflexivity).
    repeat split; intros; rewrite <- E at 2; apply any_order; auto.
  Qed.

  (** *** C17 *)
  Lemma list_is_stack ts s pattern sizes : ts <> [] -> (forall t, In t ts -> wf t /\ shp t = s) ->
    exists t, wf t /\ shp t = length ts :: s /\
      (forall k i t', nth_error ts k = Some t' -> get t (k :: i) = get t' i) /\
      rearrange r (Many ts) pattern sizes = rearrange r (One t) pattern sizes /\
      repeat_ r (Many ts) pattern sizes = repeat_ r (One t) pattern sizes /\
      (forall red, reduce r (Many ts) pattern red sizes = reduce r (One t) pattern red sizes).
  Proof.
    intros Hne Hts. destruct (stack_Ok ts s Hne Hts) as [t [E [W [S G]]]]. exists t.
    repeat (split; [assumption|]). repeat split; intros; apply many_stack; auto.
  Qed.

  Lemma unequal_list ts pattern sizes ex : ts <> [] -> (forall s, exists t, In t ts /\ shp t <> s) -> no_reserved sizes ->
    ex = BackendError ->
    rearrange r (Many ts) pattern sizes = Err ex /\ repeat_ r (Many ts) pattern sizes = Err ex /\
    (forall red, reduce r (Many ts) pattern red sizes = Err ex).
  Proof.
    intros Hne Hts Hr ->. pose proof (stack_err ts Hne Hts) as E.
    repeat split; intros; (apply many_err; [assumption|right; split; assumption]).
  Qed.

  Lemma empty_list pattern sizes :
    rearrange r (Many []) pattern sizes = Err TypeError /\ repeat_ r (Many []) pattern sizes = Err TypeError /\
    (forall red, reduce r (Many []) pattern red sizes = Err TypeError).
  Proof. repeat split; intros; apply many_empty_type. Qed.

  (** *** C18 *)
  Lemma xp_agree (x : input (tensor A)) pattern sizes y : NoDup (map fst sizes) ->
    (forall t, x = One t -> wf t) -> (forall ts t, x = Many ts -> In t ts -> wf t) ->
    (rearrange r x pattern sizes = Ok y -> xp_rearrange r x pattern sizes = Ok y) /\
    (repeat_sizes_ok r pattern sizes -> repeat_ r x pattern sizes = Ok y -> xp_repeat r x pattern sizes = Ok y) /\
    (forall s, builtin s -> reduction_fits r s ->
       reduce r x pattern (RStr s) sizes = Ok y -> xp_reduce_ r x pattern (RStr s) sizes = Ok y) /\
    (forall g, reduce r x pattern (RCall g) sizes = Ok y -> xp_reduce_ r x pattern (RCall g) sizes = Ok y).
  Proof.
    intros Hn H1 H2.
    assert (G : forall rd, match rd with
      | RStr s => (s = s_repeat -> repeat_sizes_ok r pattern sizes) /\ (str_mem s reductions = true -> one_by_one f s = true -> splits (rt_red r s))
      | RCall _ => True end ->
      reduce r x pattern rd sizes = Ok y -> xp_reduce_ r x pattern rd sizes = Ok y).
    { intros rd Hrd H. destruct x as [t|ts]; [apply (xp_agrees r Hok); auto|apply (xp_agrees_many r Hok); auto].
      intros t Ht. eapply H2; eauto. }
    split; [|split; [|split]].
    - refine (G (RStr s_rearrange) (conj _ _)); intros E; inversion E.
    - intros Hs. refine (G (RStr s_repeat) (conj (fun _ => Hs) _)). intros E; inversion E.
    - intros s Hb Hf. refine (G (RStr s) (conj _ (fun _ => Hf))). intros ->. apply builtin_mem in Hb. inversion Hb.
    - intros g. exact (G (RCall g) I).
  Qed.

  (** *** C19 *)
  Lemma rearrange_same f1 f2 (x : input (tensor A)) pattern sizes :
    rearrange (with_framework r f1) x pattern sizes = rearrange (with_framework r f2) x pattern sizes.
  Proof. apply (rearrange_uses U HU (rt_orders r) Ho); intros; destruct f1, f2; reflexivity. Qed.

  (** *** C22 *)
  Lemma callable_call x pattern sizes L R e len : NoDup (map fst sizes) -> wf x -> no_reserved sizes ->
    call_ok U Reducing pattern sizes (shp x) L R e len ->
    let gl := left_groups e L in let gr := right_groups e L R in
    exists t, spread gl (concat gr ++ missing gl gr) len x t /\
      forall g, reduce r (One x) pattern (RCall g) sizes =
        (let* t' := if (length (missing gl gr) =? 0) then Ok t
                    else g t (seq (length (concat gr)) (length (missing gl gr))) in
         reshape_to (rt_lib r) gr len t').
  Proof.
    intros Hn Hw Hr Hc. destruct (callable_eq r Hok x pattern sizes L R e len Hn Hw Hr Hc) as [t [S E]].
    exists t. split; auto. intros g. rewrite E. destruct (missing _ _); reflexivity.
  Qed.

  (** *** C40 *)
  Lemma reduce_rearranged x y z z' p1 p2 p3 s1 s2 s3 op L M R e len :
    NoDup (map fst s1) -> NoDup (map fst s2) -> NoDup (map fst s3) -> wf x ->
    builtin op -> reduction_fits r op -> symmetric (rt_red r op) ->
    rearrange r (One x) p1 s1 = Ok y -> reduce r (One y) p2 (RStr op) s2 = Ok z -> reduce r (One x) p3 (RStr op) s3 = Ok z' ->
    reads U p1 L M -> reads U p2 M R -> reads U p3 L R -> plain M -> rank_fits L (length (shp x)) e ->
    fits len (left_groups e L) (right_groups e L M) (shp x) s1 ->
    fits len (left_groups e M) (right_groups e M R) (shp y) s2 ->
    fits len (left_groups e L) (right_groups e L R) (shp x) s3 -> z' = z.
  Proof. intros H1 H2 H3 H4 H5. apply builtin_mem in H5. intros. eapply (reduce_of_rearranged r Hok x y z z' p1 p2 p3 s1 s2 s3 op L M R e len); eauto. Qed.

  Lemma reduce_nothing x y pattern op sizes L R e : NoDup (map fst sizes) -> wf x -> builtin op ->
    reads U pattern L R -> rank_fits L (length (shp x)) e -> (odd_pattern L R -> e = 0) ->
    has_numbers L = false -> incl (keys L) (keys R) ->
    (reduce r (One x) pattern (RStr op) sizes = Ok y <-> rearrange r (One x) pattern sizes = Ok y).
  Proof. intros H1 H2 H3. apply builtin_mem in H3. apply reduce_is_rearrange; auto. Qed.
End Final.
