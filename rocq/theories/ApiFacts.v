(** * Properties of the functions users call *)
From Verif Require Import Py Tensor ListFacts TensorFacts SpecSem SpecGrammar SpecPattern SpecOps Parsing Compile Recipe Ops Backends Api StepFacts ParseFacts ParseFacts2 ParseFacts3 RecipeFacts InferFacts ApplyFacts FrontFacts FrontFacts2 FrontFacts3 MainFacts MainFacts2 ReduceFacts MainFacts3 CallFacts RelabelFacts Laws.

(** ** general *)
Lemma no_arrow_free s : no_arrow s <-> arrow_free s.
Proof.
  unfold no_arrow, arrow_free. split.
  - intros H. destruct (str_contains s_arrow s) eqn:E; auto. apply str_contains_spec in E as [a [b E]]. exfalso. eapply H; eauto.
  - intros H a b E. assert (X : str_contains s_arrow s = true) by (apply str_contains_spec; eauto). congruence.
Qed.

Lemma rank_fits_fun L n e e' : rank_fits L n e -> rank_fits L n e' -> e = e'.
Proof. unfold rank_fits. destruct (has_dots L); lia. Qed.

Lemma call_only U w pattern sizes shape L R e len : unicode_ok U -> call_ok U w pattern sizes shape L R e len ->
  only_reading U w pattern sizes shape L R e len.
Proof.
  intros HU H. split; auto. intros L' R' e' len' Hr Hk Hf.
  destruct (reads_fun U HU pattern L' R' L R Hr (co_reads _ _ _ _ _ _ _ _ _ H)) as [-> ->].
  assert (e' = e) as -> by (eapply rank_fits_fun; eauto; eapply co_rank; eauto).
  repeat split; auto. eapply fits_unique; eauto.
Qed.

Section Monotone.
  Context {A : Type} (U : unicode) (o : orders) (lib : bool).
  Context (red1 red2 : tensor A -> list nat -> result (tensor A)).
  Context (add_ : tensor A -> nat -> list (nat * Z) -> result (tensor A)).

  Lemma core_call_mono pattern op sizes x y : (forall t axes t', red1 t axes = Ok t' -> red2 t axes = Ok t') ->
    core_call U o lib red1 add_ pattern op sizes x = Ok y -> core_call U o lib red2 add_ pattern op sizes x = Ok y.
  Proof.
    intros H. unfold core_call, steps. intros E.
    apply bind_Ok in E as [r [-> E]]. apply bind_Ok in E as [k [E1 E]]. cbn [bind]. rewrite E1.
    apply bind_Ok in E as [t1 [E2 E]]. apply bind_Ok in E as [t2 [E3 E]]. apply bind_Ok in E as [t3 [E4 E]].
    cbn [bind]. rewrite E2. cbn [bind]. rewrite E3. cbn [bind].
    assert (E5 : match k_reduced k with [] => Ok t2 | _ => red2 t2 (k_reduced k) end = Ok t3).
    { destruct (k_reduced k); auto. }
    rewrite E5. exact E.
  Qed.
End Monotone.

(** ** failing reductions *)
Section ReduceErr.
  Context {A : Type}.

  Lemma joint_err (red : list A -> result A) (t : tensor A) k m ex : wf t -> length (shp t) = k + m ->
    t_reduce red t (seq k m) = Err ex -> exists vs, red vs = Err ex.
  Proof.
    intros Hw Hl H. pose proof (repr_positions t Hw) as R. rewrite Hl, seq_app in R. simpl in R.
    assert (Hnd : NoDup (seq 0 k ++ seq k m)) by (change (seq k m) with (seq (0 + k) m); rewrite <- seq_app; apply seq_NoDup).
    destruct (reduce_eq Nat.eqb Nat.eqb_eq red t (seq 0 k) (seq k m) _ _ Hnd R) as [h [E Hh]].
    rewrite !seq_length in E. rewrite E in H. unfold tabulate in H. apply bind_Err in H as [H|[? [_ H]]]; [|discriminate].
    apply mapM_Err_in in H as [idx [Hi H]]. apply indices_In in Hi.
    assert (Hlen : length idx = length (seq 0 k)) by (apply inb_length in Hi; rewrite map_length in Hi; auto).
    assert (Hnk : NoDup (seq 0 k)) by apply seq_NoDup.
    set (ix := assign Nat.eqb (fun _ => 0) (seq 0 k) idx).
    assert (Em : map ix (seq 0 k) = idx) by (apply assign_map; auto using Nat.eqb_eq).
    rewrite <- Em in H. rewrite Hh in H by (apply inb_within; rewrite Em; auto).
    unfold reduced_value in H. apply bind_Err in H as [H|[vs [_ H]]]; [|eauto].
    exfalso. apply mapM_Err_in in H as [r [Hr H]]. apply indices_In in Hr.
    destruct (repr_total t _ _ _ (assign Nat.eqb ix (seq k m) r) R) as [a Ha]; [|congruence].
    apply NoDup_app_iff in Hnd as [_ [Hnm Hd]].
    apply within_app. split.
    - intros a Ha. rewrite (assign_out Nat.eqb Nat.eqb_eq) by (intros X; apply (Hd a); auto).
      assert (W : within (fun i => nth i (shp t) 0) ix (seq 0 k)) by (apply inb_within; rewrite Em; auto). apply W; auto.
    - apply within_assign; auto using Nat.eqb_eq.
  Qed.

  Lemma joint_shape (red : list A -> result A) (t t' : tensor A) k m : wf t -> length (shp t) = k + m ->
    t_reduce red t (seq k m) = Ok t' -> wf t' /\ length (shp t') = k.
  Proof.
    intros Hw Hl H. pose proof (repr_positions t Hw) as R. rewrite Hl, seq_app in R. simpl in R.
    assert (Hnd : NoDup (seq 0 k ++ seq k m)) by (change (seq k m) with (seq (0 + k) m); rewrite <- seq_app; apply seq_NoDup).
    assert (E2 : t_reduce red t (seq (length (seq 0 k)) (length (seq k m))) = Ok t') by (rewrite !seq_length; exact H).
    pose proof (reduce_repr Nat.eqb Nat.eqb_eq red t (seq 0 k) (seq k m) _ _ t' Hnd R E2) as [H1 [H2 _]].
    split; auto. rewrite H2, map_length, seq_length. reflexivity.
  Qed.

  Lemma sequential_err (red : list A -> result A) k m ex : forall t, wf t -> length (shp t) = k + m ->
    foldM (step1 red) (rev (seq k m)) t = Err ex -> exists vs, red vs = Err ex.
  Proof.
    induction m as [|m IH]; intros t Hw Hl H; [discriminate|]. rewrite rev_seq_S in H. cbn [foldM] in H.
    apply bind_Err in H as [H|[t1 [H1 H]]].
    - unfold step1 in H. eapply (joint_err red t (k + m) 1); eauto. lia.
    - unfold step1 in H1. destruct (joint_shape red t t1 (k + m) 1 Hw) as [Hw1 Hl1]; [lia|exact H1|]. eapply IH; eauto.
  Qed.

  Lemma framework_err lib (red : pystr -> list A -> result A) isf num f s t k m ex :
    str_mem s reductions = true -> wf t -> length (shp t) = k + m ->
    b_reduce (backend_of lib red isf num f) t s (seq k m) = Err ex ->
    (ex = NotImplementedError /\ has_reduction f s = false) \/ exists vs, red s vs = Err ex.
  Proof.
    intros Hs Hw Hl H.
    assert (Hcases : In s reductions) by (apply str_mem_In; auto).
    destruct f; cbn [backend_of b_reduce make_backend has_reduction] in *;
      try (right; unfold joint_reduce in H; eapply joint_err; eauto; fail).
    - right. unfold torch_reduce, sequential_reduce, joint_reduce in H. rewrite sort_desc_seq in H.
      repeat (destruct Hcases as [<-|Hcases]; [simpl in H; first [eapply joint_err; eauto; fail|eapply sequential_err; eauto; fail]|]).
      destruct Hcases.
    - right. unfold oneflow_reduce in H. rewrite sort_desc_seq, Hs in H. eapply sequential_err; eauto.
    - right. unfold paddle_reduce, paddle_own_reduce, joint_reduce in H. rewrite seq_length in H.
      destruct (m =? length (shp t)).
      + apply bind_Err in H as [H|[t1 [H1 H]]].
        * apply bind_Err in H as [H|[t2 [_ H]]]; [eapply joint_err; eauto|discriminate].
        * apply bind_Ok in H1 as [t2 [_ H2]]. inversion H2; subst. discriminate.
      + apply bind_Err in H as [H|[t2 [_ H]]]; [eapply joint_err; eauto|discriminate].
    - right. unfold sequential_reduce in H. rewrite sort_desc_seq in H. eapply sequential_err; eauto.
    - unfold torch_jit_reduce, sequential_reduce, joint_reduce in H. rewrite sort_desc_seq in H.
      repeat (destruct Hcases as [<-|Hcases]; [simpl in H |- *; first
        [right; eapply joint_err; eauto; fail|right; eapply sequential_err; eauto; fail|left; split; congruence]|]).
      destruct Hcases.
  Qed.
End ReduceErr.

(** ** the operations *)
Section Functions.
  Context {A : Type} (r : runtime A) (Hok : runtime_ok r).
  Notation U := (rt_unicode r).
  Notation f := (rt_framework r).
  Implicit Types (x y : tensor A) (pattern : pystr) (sizes : list (pystr * Z)).
  Let HU : unicode_ok U := ro_unicode r Hok.
  Let Ho : orders_ok (rt_orders r) := ro_orders r Hok.

  Lemma role_of_red s : str_mem s reductions = true -> op_role (op_of (@RStr (tensor A) s)) = Some Reducing.
  Proof. intros Hs. apply str_mem_In in Hs. repeat (destruct Hs as [<-|Hs]; [reflexivity|]). destruct Hs. Qed.

  (** *** rearrange *)
  Lemma rearrange_accepts x pattern sizes : NoDup (map fst sizes) -> wf x ->
    ((exists y, rearrange r (One x) pattern sizes = Ok y) <->
     no_reserved sizes /\ exists L R e len, call_ok U Rearranging pattern sizes (shp x) L R e len).
  Proof.
    intros Hn Hw. split.
    - intros [y H]. destruct (api_sound U HU (rt_orders r) Ho (rt_lib r) (rt_red r) (rt_isf r) (rt_num r) f x pattern (RStr s_rearrange) sizes y Hn Hw) as [Hres [w [L [R [e [len [Er Hc]]]]]]]; auto.
      { intros _ X. discriminate. }
      split; auto. inversion Er; subst. eauto.
    - intros [Hres [L [R [e [len Hc]]]]].
      destruct (api_moves_ex U HU (rt_orders r) Ho (rt_lib r) (rt_red r) (rt_isf r) (rt_num r) f x pattern sizes Hn Hw Hres (RStr s_rearrange) Rearranging L R e len eq_refl Hc) as [y [Hy _]]; eauto.
      eapply no_missing; eauto. discriminate.
  Qed.

  Lemma rearrange_iff x pattern sizes L R e len y : NoDup (map fst sizes) -> wf x -> no_reserved sizes ->
    call_ok U Rearranging pattern sizes (shp x) L R e len ->
    (rearrange r (One x) pattern sizes = Ok y <-> moves (left_groups e L) (right_groups e L R) len x y).
  Proof.
    intros Hn Hw Hres Hc. eapply api_moves; eauto; try reflexivity. eapply no_missing; eauto. discriminate.
  Qed.

  Lemma rearrange_moves x pattern sizes y : NoDup (map fst sizes) -> wf x ->
    rearrange r (One x) pattern sizes = Ok y ->
    exists L R e len, only_reading U Rearranging pattern sizes (shp x) L R e len /\
      moves (left_groups e L) (right_groups e L R) len x y.
  Proof.
    intros Hn Hw H. destruct (proj1 (rearrange_accepts x pattern sizes Hn Hw)) as [Hres [L [R [e [len Hc]]]]]; eauto.
    exists L, R, e, len. split; [apply call_only; auto|]. eapply rearrange_iff; eauto.
  Qed.

  (** *** repeat *)
  Lemma repeat_accepts x pattern sizes : NoDup (map fst sizes) -> wf x -> repeat_sizes_ok r pattern sizes ->
    ((exists y, repeat_ r (One x) pattern sizes = Ok y) <->
     no_reserved sizes /\ exists L R e len, call_ok U Repeating pattern sizes (shp x) L R e len).
  Proof.
    intros Hn Hw Hs. split.
    - intros [y H]. destruct (api_sound U HU (rt_orders r) Ho (rt_lib r) (rt_red r) (rt_isf r) (rt_num r) f x pattern (RStr s_repeat) sizes y Hn Hw) as [Hres [w [L [R [e [len [Er Hc]]]]]]]; auto.
      { intros E _. exact (Hs E). }
      split; auto. inversion Er; subst. eauto.
    - intros [Hres [L [R [e [len Hc]]]]].
      destruct (api_moves_ex U HU (rt_orders r) Ho (rt_lib r) (rt_red r) (rt_isf r) (rt_num r) f x pattern sizes Hn Hw Hres (RStr s_repeat) Repeating L R e len eq_refl Hc) as [y [Hy _]]; eauto.
      eapply no_missing; eauto. discriminate.
  Qed.

  Lemma repeat_iff x pattern sizes L R e len y : NoDup (map fst sizes) -> wf x -> no_reserved sizes ->
    call_ok U Repeating pattern sizes (shp x) L R e len ->
    (repeat_ r (One x) pattern sizes = Ok y <-> moves (left_groups e L) (right_groups e L R) len x y).
  Proof.
    intros Hn Hw Hres Hc. eapply api_moves; eauto; try reflexivity. eapply no_missing; eauto. discriminate.
  Qed.

  Lemma repeat_moves x pattern sizes y : NoDup (map fst sizes) -> wf x -> repeat_sizes_ok r pattern sizes ->
    repeat_ r (One x) pattern sizes = Ok y ->
    exists L R e len, only_reading U Repeating pattern sizes (shp x) L R e len /\
      moves (left_groups e L) (right_groups e L R) len x y.
  Proof.
    intros Hn Hw Hs H. destruct (proj1 (repeat_accepts x pattern sizes Hn Hw Hs)) as [Hres [L [R [e [len Hc]]]]]; eauto.
    exists L, R, e, len. split; [apply call_only; auto|]. eapply repeat_iff; eauto.
  Qed.

  (** *** reduce *)
  Definition float_runtime : runtime A :=
    mkR A U (rt_orders r) f (rt_lib r) (rt_red r) (fun _ => true) (rt_num r).

  Lemma reduce_mono x pattern s sizes y : reduce r (One x) pattern (RStr s) sizes = Ok y ->
    reduce float_runtime (One x) pattern (RStr s) sizes = Ok y.
  Proof.
    unfold reduce, rt_backend. cbn [rt_unicode rt_orders rt_framework rt_lib rt_red rt_isf rt_num float_runtime].
    rewrite !api_core. intros H. apply bind_Ok in H as [u [-> H]]. cbn [bind].
    assert (E : b_add_axes (backend_of (rt_lib r) (rt_red r) (fun _ => true) (rt_num r) f)
                = b_add_axes (backend_of (rt_lib r) (rt_red r) (rt_isf r) (rt_num r) f)) by (destruct f; reflexivity).
    rewrite E. eapply core_call_mono; [|exact H]. intros t axes t' Ht. cbn [reduce_axes] in Ht |- *.
    apply bind_Ok in Ht as [u1 [-> Ht]]. apply bind_Ok in Ht as [u2 [_ Ht]]. cbn [bind].
    assert (E2 : b_is_float (backend_of (rt_lib r) (rt_red r) (fun _ => true) (rt_num r) f) t = true) by (destruct f; reflexivity).
    rewrite E2, andb_false_r. cbn [raise_if bind]. rewrite <- Ht. destruct f; reflexivity.
  Qed.

  Lemma reduce_iff x pattern s sizes L R e len y : NoDup (map fst sizes) -> wf x -> no_reserved sizes ->
    str_mem s reductions = true -> (one_by_one f s = true -> splits (rt_red r s)) ->
    (s = lit "mean" -> forall t, rt_isf r t = true) ->
    call_ok U Reducing pattern sizes (shp x) L R e len ->
    (reduce r (One x) pattern (RStr s) sizes = Ok y <->
     (missing (left_groups e L) (right_groups e L R) = [] /\ moves (left_groups e L) (right_groups e L R) len x y) \/
     (missing (left_groups e L) (right_groups e L R) <> [] /\ has_reduction f s = true /\
      reduces (rt_red r s) (left_groups e L) (right_groups e L R) len x y)).
  Proof.
    intros Hn Hw Hres Hs Hsp Hm Hc.
    assert (D : missing (left_groups e L) (right_groups e L R) = [] \/ missing (left_groups e L) (right_groups e L R) <> [])
      by (destruct (missing _ _); [left; auto|right; discriminate]).
    destruct D as [D|D].
    - rewrite (api_moves U HU (rt_orders r) Ho (rt_lib r) (rt_red r) (rt_isf r) (rt_num r) f x pattern sizes Hn Hw Hres (RStr s) Reducing L R e len y (role_of_red s Hs) Hc D).
      tauto.
    - rewrite (api_reduces U HU (rt_orders r) Ho (rt_lib r) (rt_red r) (rt_isf r) (rt_num r) f x pattern sizes Hn Hw Hres s L R e len y Hs (conj Hsp Hm) Hc D).
      tauto.
  Qed.

  Lemma reduce_sound x pattern s sizes y : NoDup (map fst sizes) -> wf x ->
    str_mem s reductions = true -> reduce r (One x) pattern (RStr s) sizes = Ok y ->
    no_reserved sizes /\ exists L R e len, call_ok U Reducing pattern sizes (shp x) L R e len.
  Proof.
    intros Hn Hw Hs H.
    destruct (api_sound U HU (rt_orders r) Ho (rt_lib r) (rt_red r) (rt_isf r) (rt_num r) f x pattern (RStr s) sizes y Hn Hw) as [Hres [w [L [R [e [len [Er Hc]]]]]]]; auto.
    { intros _ X. rewrite role_of_red in X by auto. discriminate. }
    rewrite role_of_red in Er by auto. inversion Er; subst. split; eauto.
  Qed.

  Lemma reduce_reduces x pattern s sizes y : NoDup (map fst sizes) -> wf x ->
    str_mem s reductions = true -> (one_by_one f s = true -> splits (rt_red r s)) ->
    reduce r (One x) pattern (RStr s) sizes = Ok y ->
    exists L R e len, only_reading U Reducing pattern sizes (shp x) L R e len /\
      let gl := left_groups e L in let gr := right_groups e L R in
      (missing gl gr = [] -> moves gl gr len x y) /\
      (missing gl gr <> [] -> reduces (rt_red r s) gl gr len x y).
  Proof.
    intros Hn Hw Hs Hsp H. destruct (reduce_sound x pattern s sizes y Hn Hw Hs H) as [Hres [L [R [e [len Hc]]]]].
    exists L, R, e, len. split; [apply call_only; auto|]. cbv zeta.
    apply reduce_mono in H.
    assert (HA := api_moves U HU (rt_orders r) Ho (rt_lib r) (rt_red r) (fun _ => true) (rt_num r) f x pattern sizes Hn Hw Hres (RStr s) Reducing L R e len y (role_of_red s Hs) Hc).
    assert (HB := api_reduces U HU (rt_orders r) Ho (rt_lib r) (rt_red r) (fun _ => true) (rt_num r) f x pattern sizes Hn Hw Hres s L R e len y Hs).
    split; intros D.
    - apply HA; auto.
    - apply HB; auto. split; auto.
  Qed.

  (** means of tensors that are not floating are refused *)
  Lemma reduce_mean_refused x pattern sizes L R e len : NoDup (map fst sizes) -> wf x -> no_reserved sizes ->
    (forall t, rt_isf r t = false) ->
    call_ok U Reducing pattern sizes (shp x) L R e len -> missing (left_groups e L) (right_groups e L R) <> [] ->
    reduce r (One x) pattern (RStr (lit "mean")) sizes = Err NotImplementedError.
  Proof.
    intros Hn Hw Hres Hisf Hc D. unfold reduce, rt_backend. rewrite api_core.
    apply check_kwargs_iff in Hres. rewrite Hres. cbn [bind].
    destruct (core_eq U HU (rt_orders r) Ho (rt_lib r) (fun t axes => reduce_axes (backend_of (rt_lib r) (rt_red r) (rt_isf r) (rt_num r) f) t (RStr (lit "mean")) axes)
      (b_add_axes (backend_of (rt_lib r) (rt_red r) (rt_isf r) (rt_num r) f)) pattern (op_of (@RStr (tensor A) (lit "mean"))) sizes x Hn Reducing L R e len
      (role_of_red (lit "mean") eq_refl) Hw (be_adds _ _ _ _ _) Hc) as [t2 [fin [_ [E _]]]].
    rewrite E. destruct (missing _ _) as [|a l]; [congruence|]. cbn [reduce_axes].
    assert (E2 : b_is_float (backend_of (rt_lib r) (rt_red r) (rt_isf r) (rt_num r) f) t2 = false) by (destruct f; apply Hisf).
    rewrite E2. reflexivity.
  Qed.

  (** *** failures *)
  Lemma failure_listed pattern sizes ex : failure U pattern sizes ex -> listed_failure U pattern sizes ex.
  Proof.
    unfold failure, listed_failure. intros [H|[[H1 H2]|[H|H]]]; auto. right; left. split; auto.
    intros l q Hl Hq. apply H2; apply no_arrow_free; auto.
  Qed.

  Lemma failing rd x pattern sizes ex : NoDup (map fst sizes) -> wf x -> nonneg sizes ->
    api_reduce U (rt_orders r) int_ops (rt_backend r) (One x) pattern rd sizes = Err ex ->
    (ex = TypeError /\ ~ no_reserved sizes) \/ listed_failure U pattern sizes ex \/
    exists w L R e len, op_role (op_of rd) = Some w /\ call_ok U w pattern sizes (shp x) L R e len /\
      missing (left_groups e L) (right_groups e L R) <> [].
  Proof.
    intros Hn Hw Hpos H. unfold rt_backend in H. rewrite api_core in H. apply bind_Err in H as [H|[u [_ H]]].
    - left. unfold check_kwargs in H. apply raise_if_Err in H as [H <-]. split; auto.
      intros X. apply (check_kwargs_iff sizes) in X. unfold check_kwargs in X. rewrite H in X. discriminate.
    - right. destruct (core_total U HU (rt_orders r) Ho (rt_lib r) (fun t axes => reduce_axes (backend_of (rt_lib r) (rt_red r) (rt_isf r) (rt_num r) f) t rd axes) (b_add_axes (backend_of (rt_lib r) (rt_red r) (rt_isf r) (rt_num r) f))
        pattern (op_of rd) sizes x Hn Hpos) as [[w [L [R [e [len [Er Hc]]]]]]|[ex' [E Hf]]].
      + right. exists w, L, R, e, len. split; auto. split; auto. intros Hm.
        edestruct (core_moves U HU (rt_orders r) Ho (rt_lib r) (fun t axes => reduce_axes (backend_of (rt_lib r) (rt_red r) (rt_isf r) (rt_num r) f) t rd axes) (b_add_axes (backend_of (rt_lib r) (rt_red r) (rt_isf r) (rt_num r) f))
          pattern (op_of rd) sizes x Hn (be_adds _ _ _ _ _) Hw w Er L R e len Hc Hm) as [y [Hy _]].
        rewrite Hy in H. discriminate.
      + left. rewrite E in H. inversion H; subst. apply failure_listed; auto.
  Qed.

  Lemma rearrange_fails x pattern sizes ex : NoDup (map fst sizes) -> wf x -> nonneg sizes ->
    rearrange r (One x) pattern sizes = Err ex ->
    (ex = TypeError /\ ~ no_reserved sizes) \/ listed_failure U pattern sizes ex.
  Proof.
    intros Hn Hw Hpos H. destruct (failing _ x pattern sizes ex Hn Hw Hpos H) as [E|[E|[w [L [R [e [len [Er [Hc Hm]]]]]]]]]; auto.
    exfalso. apply Hm. inversion Er; subst. eapply no_missing; eauto. discriminate.
  Qed.
  Lemma repeat_fails x pattern sizes ex : NoDup (map fst sizes) -> wf x -> nonneg sizes ->
    repeat_ r (One x) pattern sizes = Err ex ->
    (ex = TypeError /\ ~ no_reserved sizes) \/ listed_failure U pattern sizes ex.
  Proof.
    intros Hn Hw Hpos H. destruct (failing _ x pattern sizes ex Hn Hw Hpos H) as [E|[E|[w [L [R [e [len [Er [Hc Hm]]]]]]]]]; auto.
    exfalso. apply Hm. inversion Er; subst. eapply no_missing; eauto. discriminate.
  Qed.

  Lemma reduce_fails x pattern s sizes ex : NoDup (map fst sizes) -> wf x -> nonneg sizes ->
    str_mem s reductions = true -> (one_by_one f s = true -> splits (rt_red r s)) ->
    reduce r (One x) pattern (RStr s) sizes = Err ex ->
    (ex = TypeError /\ ~ no_reserved sizes) \/ listed_failure U pattern sizes ex \/
    (ex = NotImplementedError /\ (has_reduction f s = false \/ s = lit "mean" /\ exists t, rt_isf r t = false)) \/
    (exists vs, rt_red r s vs = Err ex).
  Proof.
    intros Hn Hw Hpos Hs Hsp H. destruct (failing _ x pattern sizes ex Hn Hw Hpos H) as [E|[E|[w [L [R [e [len [Er [Hc Hm]]]]]]]]]; auto.
    destruct (check_kwargs reserved_kwargs sizes) as [u|ek] eqn:Ek.
    2:{ left. unfold reduce, rt_backend in H. rewrite api_core, Ek in H. cbn [bind] in H. inversion H; subst ek.
        unfold check_kwargs in Ek. apply raise_if_Err in Ek as [Ek <-]. split; auto.
        intros X. apply (check_kwargs_iff sizes) in X. unfold check_kwargs in X. rewrite Ek in X. discriminate. }
    right; right. rewrite role_of_red in Er by auto. inversion Er; subst w.
    unfold reduce, rt_backend in H. rewrite api_core, Ek in H. cbn [bind] in H.
    destruct (core_eq U HU (rt_orders r) Ho (rt_lib r) (fun t axes => reduce_axes (backend_of (rt_lib r) (rt_red r) (rt_isf r) (rt_num r) f) t (RStr s) axes)
      (b_add_axes (backend_of (rt_lib r) (rt_red r) (rt_isf r) (rt_num r) f)) pattern (op_of (@RStr (tensor A) s)) sizes x Hn Reducing L R e len
      (role_of_red _ Hs) Hw (be_adds _ _ _ _ _) Hc) as [t2 [fin [R2 [E [Hfin _]]]]].
    rewrite E in H. clear E.
    set (gl := left_groups e L) in *. set (gr := right_groups e L R) in *.
    assert (Hl : length (shp t2) = length (kept gl gr) + length (missing gl gr)).
    { destruct R2 as [_ [-> _]]. rewrite map_length, app_length. reflexivity. }
    assert (Hw2 : wf t2) by apply R2.
    assert (Hm0 : length (missing gl gr) <> 0) by (destruct (missing gl gr); [congruence|discriminate]).
    assert (Hnd : NoDup (kept gl gr ++ missing gl gr)) by (eapply split_NoDup; eauto).
    destruct (missing gl gr) as [|a0 l0] eqn:Em; [congruence|]. rewrite <- Em in *. clear Em.
    cbn [reduce_axes] in H. rewrite Hs in H. cbn [negb raise_if bind] in H.
    destruct (str_eqb s (lit "mean") && negb (b_is_float (backend_of (rt_lib r) (rt_red r) (rt_isf r) (rt_num r) f) t2)) eqn:Ef;
      cbn [raise_if bind] in H.
    - left. inversion H. split; auto. right. apply andb_true_iff in Ef as [E1 E2]. apply str_eqb_eq in E1. split; auto.
      exists t2. apply negb_true_iff in E2. rewrite <- E2. destruct f; reflexivity.
    - apply bind_Err in H as [H|[t3 [H3 H]]].
      + eapply framework_err in H; eauto. tauto.
      + exfalso. apply framework_reduce in H3 as [_ H3]; auto.
        apply (reduce_repr label_eqb label_eqb_eq) with (3 := H3) in R2; auto.
        destruct (Hfin t3 _ (reduced_looks _ gl gr len x) R2) as [y [Hy _]]. congruence.
  Qed.
End Functions.
