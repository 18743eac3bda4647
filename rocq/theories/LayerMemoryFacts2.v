(** * EinMix in memory: the in-place sum *)
From Verif Require Import Py Tensor Cache CacheFacts ListFacts TensorFacts SpecSem SpecGrammar SpecPattern SpecOps SpecCalls SpecElements ElementFacts Parsing Recipe Ops Backends Api Layers EinMix Strides SpecStrides
  SymFacts StrideFacts StrideFacts2 StrideFacts3 StrideFacts4 StrideFacts5 EinsumFacts4 MixFacts9 FrontFacts2 FrontFacts3 CallsFacts LayerFacts LayerMemory SpecLayerMemory LayerMemoryFacts Instances.

(** *** the constructors, on arrays and on tensors *)
Section Make.
  Context {A : Type} (mem : memory A) (U : unicode).
  Lemma make_show os pattern (red : reduction (array A)) (red' : reduction (tensor A)) sizes : reds_show mem red red' ->
    both (layers_show mem) (make_layer U os pattern red sizes) (make_layer U os pattern red' sizes).
  Proof.
    intros H. assert (E : op_of red = op_of red') by (destruct red, red'; cbn in H |- *; try contradiction; congruence).
    unfold make_layer. rewrite E. apply both_bind_same. intros recipes. split; [reflexivity|]. split; [reflexivity|exact H].
  Qed.
  Lemma Reduce_show os pattern (red : reduction (array A)) (red' : reduction (tensor A)) sizes : reds_show mem red red' ->
    both (layers_show mem) (Reduce U os pattern red sizes) (Reduce U os pattern red' sizes).
  Proof. intros H. unfold Reduce. apply both_bind_same. intros _. apply make_show, H. Qed.
  Lemma Rearrange_show os pattern sizes : both (layers_show mem) (Rearrange (T := array A) U os pattern sizes) (Rearrange (T := tensor A) U os pattern sizes).
  Proof. unfold Rearrange. apply both_bind_same. intros _. apply make_show. reflexivity. Qed.

  Definition mixes_show (M : einmix (array A)) (M' : einmix (tensor A)) : Prop :=
    em_einsum M = em_einsum M' /\ em_weight M = em_weight M' /\ em_bias M = em_bias M' /\ olayers_show mem (em_pre M) (em_pre M') /\ olayers_show mem (em_post M) (em_post M').
  Lemma EinMix_show os os' pattern wt bt sizes : both mixes_show (EinMix (T := array A) U os os' pattern wt bt sizes) (EinMix (T := tensor A) U os os' pattern wt bt sizes).
  Proof.
    unfold EinMix, initialize_einmix. apply both_bind_same. intros _. apply both_bind_same. intros [[[[[lp rp] l] rg] w] next].
    apply (both_bind (fun p q => olayers_show mem (fst p) (fst q) /\ olayers_show mem (snd p) (snd q))).
    - unfold rearrange_layers. apply (both_bind (olayers_show mem)).
      { destruct (pre_reshape lp l sizes) as [[p ls]|]; [|exact I]. eapply both_bind; [apply Rearrange_show|]. intros L L' H. exact H. }
      intros o1 o2 H1. apply (both_bind (olayers_show mem)).
      { destruct (post_reshape rp rg) as [p|]; [|exact I]. eapply both_bind; [apply Rearrange_show|]. intros L L' H. exact H. }
      intros o3 o4 H2. exact (conj H1 H2).
    - intros [p q] [p' q'] [H1 H2]. cbn in H1, H2. repeat (apply both_bind_same; intros ?). repeat split; assumption.
  Qed.
End Make.

Section Store.
  Context {A : Type}.
  Lemma replace_nth_length {X} k (x : X) l : length (replace_nth k x l) = length l.
  Proof.
    unfold replace_nth. rewrite app_length, firstn_length. pose proof (skipn_length k l) as E. destruct (skipn k l); cbn [length] in *; lia.
  Qed.
  Lemma store_list_length : forall ks (vals d : list A), length (store_list d ks vals) = length d.
  Proof. induction ks as [|k ks IH]; intros [|a vals] d; try reflexivity. unfold store_list. cbn [combine fold_left]. fold (store_list (replace_nth (Z.to_nat k) a d) ks vals). rewrite IH. apply replace_nth_length. Qed.
  Lemma store_other : forall ks (vals d : list A) n, ~ In n (map Z.to_nat ks) -> nth_error (store_list d ks vals) n = nth_error d n.
  Proof.
    induction ks as [|k ks IH]; intros [|a vals] d n Hn; try reflexivity. unfold store_list. cbn [combine fold_left]. fold (store_list (replace_nth (Z.to_nat k) a d) ks vals). cbn in Hn.
    rewrite IH by tauto. apply replace_nth_other. intuition.
  Qed.
  Lemma store_same : forall ks (vals d : list A), NoDup ks -> length vals = length ks -> Forall (fun k => (0 <= k)%Z /\ Z.to_nat k < length d) ks ->
    Forall2 (fun k a => (0 <= k)%Z /\ nth_error (store_list d ks vals) (Z.to_nat k) = Some a) ks vals.
  Proof.
    induction ks as [|k ks IH]; intros [|a vals] d Hn Hl F; try discriminate; [constructor|]. inversion_clear Hn as [|? ? Hk Hn']. inversion_clear F as [|? ? [Hk0 Hkd] F'].
    unfold store_list. cbn [combine fold_left]. fold (store_list (replace_nth (Z.to_nat k) a d) ks vals). constructor.
    - split; [exact Hk0|]. rewrite store_other.
      + apply replace_nth_same, Hkd.
      + intros Hi. apply in_map_iff in Hi as (k' & E & Hi). rewrite Forall_forall in F'. destruct (F' _ Hi) as [H0 _]. apply Hk. replace k with k' by lia. exact Hi.
    - apply IH; [exact Hn'|cbn in Hl; lia|]. rewrite replace_nth_length. exact F'.
  Qed.
  Lemma store_new (mem : memory A) v t t' d : a_buf v = New d -> NoDup (dat (places v)) -> shows mem v t -> wf t' -> shp t' = shp t ->
    fst (store mem v t') = mem /\ shows mem (snd (store mem v t')) t' /\ own_buffer (snd (store mem v t')).
  Proof.
    intros Eb Hn H Wt Es. unfold store. rewrite Eb. cbn [fst snd]. split; [reflexivity|]. split; [|eexists; reflexivity].
    pose proof (shows_wf _ _ _ H) as [Wt0 Es0]. destruct H as [Hl [_ F]]. split; [exact Hl|]. split; [cbn [shp places a_shp]; congruence|].
    cbn [a_buf]. change (dat (places (mkArr (New (store_list d (dat (places v)) (dat t'))) (a_off v) (a_shp v) (a_str v)))) with (dat (places v)).
    unfold at_place. cbn [contents]. apply store_same.
    - exact Hn.
    - rewrite Wt, Es. rewrite <- Wt0. symmetry. exact (SymFacts.Forall2_len F).
    - rewrite Eb in F. apply Forall_forall. intros k Hk. apply In_nth_error in Hk as [n Hk].
      assert (E : exists a, at_place mem (New d) k a).
      { clear - F Hk. revert n Hk. induction F as [|x y l l' Hxy F IH]; intros [|n] Hk; try discriminate; cbn in Hk; [injection Hk as ->; eauto|eauto]. }
      destruct E as [a [E0 E1]]. split; [exact E0|]. apply nth_error_Some. cbn [contents] in E1. congruence.
  Qed.
End Store.

Section Call.
  Context {A : Type} (mem : memory A) (nocopy : list nat -> list Z -> list nat -> option (list Z)) (Hnc : nocopy_ok nocopy) (r : runtime A) (ip : bool).
  Context (lib : memory A -> pystr -> list (array A) -> result (array A)) (ref : pystr -> list (tensor A) -> result (tensor A)) (iadd : tensor A -> tensor A -> result (tensor A)).
  Context (Hlib : einsum_in_memory lib ref) (Hadd : keeps_shape iadd).

  Definition given (p : memory A * array A) (t : tensor A) : Prop := fst p = mem /\ shows mem (snd p) t /\ own_buffer (snd p).

  Lemma iadd_shows v t b c : shows mem v t -> own_buffer v -> NoDup (dat (places v)) -> shows mem b c -> both given (v_iadd mem ip iadd v b) (iadd t c).
  Proof.
    intros H [d Hd] Hn Hb. unfold v_iadd. rewrite (shows_read _ _ _ H), (shows_read _ _ _ Hb). cbn [bind].
    destruct (iadd t c) as [t'|ex] eqn:E; [|reflexivity]. cbn [bind both]. destruct (Hadd t c t' (proj1 (shows_wf _ _ _ H)) (proj1 (shows_wf _ _ _ Hb)) E) as [Wt Es].
    destruct ip.
    - unfold given. eapply store_new; eauto.
    - split; [reflexivity|]. split; [apply fresh_shows, Wt|eexists; reflexivity].
  Qed.

  (** the layers of EinMix are Rearranges *)
  Definition named (L : option (layer (array A))) : Prop := forall L0, L = Some L0 -> exists s, ly_red L0 = RStr s.
  Lemma Rearrange_named U os pattern sizes (L : layer (array A)) : Rearrange U os pattern sizes = Ok L -> exists s, ly_red L = RStr s.
  Proof. unfold Rearrange, make_layer. intros H. apply bind_Ok in H as [_ [_ H]]. apply bind_Ok in H as [rc [_ H]]. injection H as <-. cbn. eauto. Qed.
  Lemma EinMix_named U os os' pattern wt bt sizes (M : einmix (array A)) : EinMix U os os' pattern wt bt sizes = Ok M -> named (em_pre M) /\ named (em_post M).
  Proof.
    unfold EinMix, initialize_einmix. intros H. apply bind_Ok in H as [_ [_ H]]. apply bind_Ok in H as [[[[[[lp rp] l] rg] w] next] [_ H]]. apply bind_Ok in H as [[pre post] [E H]].
    repeat (apply bind_Ok in H as [? [_ H]]). injection H as <-. cbn [em_pre em_post]. unfold rearrange_layers in E. apply bind_Ok in E as [p [E1 E]]. apply bind_Ok in E as [q [E2 E]]. injection E as <- <-.
    assert (G : forall os p0 ls (o : option (layer (array A))), (let* L := Rearrange U os p0 ls in Ok (Some L)) = Ok o -> named o).
    { intros o0 p0 ls o E. apply bind_Ok in E as [L [EL E]]. injection E as <-. intros L0 E0. injection E0 as <-. eapply Rearrange_named, EL. }
    split.
    - destruct (pre_reshape lp l sizes) as [[p0 ls]|]; [eapply G, E1|injection E1 as <-; intros ? ?; discriminate].
    - destruct (post_reshape rp rg) as [p0|]; [eapply G, E2|injection E2 as <-; intros ? ?; discriminate].
  Qed.

  Lemma einmix_memory M M' w w' b b' x x' : mixes_show mem M M' -> named (em_post M) -> shows mem x x' -> shows mem w w' -> option_shows mem b b' ->
    both given (v_call_einmix mem nocopy r ip lib iadd M w b x) (call_einmix r ref iadd M' w' b' x').
  Proof.
    intros (Ee & _ & _ & Hpre & Hpost) Hnm Hx Hw Hb. unfold v_call_einmix, call_einmix. rewrite Ee.
    eapply both_bind; [apply (option_values mem nocopy Hnc r _ _ _ _ Hpre Hx)|]. intros i i' Hi.
    eapply both_bind; [apply (Hlib mem (em_einsum M') [i; w] [i'; w']); constructor; [exact Hi|constructor; [exact Hw|constructor]]|]. intros v t (Hv & Ho & Hn).
    apply (both_bind given).
    - destruct b as [b|], b' as [b'|]; cbn in Hb; try contradiction; [apply iadd_shows; assumption|]. split; [reflexivity|]. split; assumption.
    - intros [mem' v2] t2 (E & Hv2 & Ho2). cbn [fst snd] in E, Hv2, Ho2. subst mem'. pose proof (option_values mem nocopy Hnc r _ _ _ _ Hpost Hv2) as HB.
      destruct (v_call_option mem nocopy r (em_post M) v2) as [y|ex] eqn:Ey, (call_option r (em_post M') t2) as [y'|ex']; cbn in HB |- *; try contradiction; [|exact HB].
      split; [reflexivity|]. split; [exact HB|]. cbn [snd]. eapply new_stays; [eapply (option_buf mem nocopy r), Ey; exact Hnm|exact Ho2].
  Qed.
End Call.

(** *** a library that does this *)
Definition new_einsum {A} (ref : pystr -> list (tensor A) -> result (tensor A)) (mem : memory A) (eq : pystr) (vs : list (array A)) : result (array A) :=
  compute (let* ts := mapM (read mem) vs in ref eq ts).
Lemma fresh_NoDup {A} (t : tensor A) : NoDup (dat (places (fresh t))).
Proof.
  unfold fresh, places. cbn [dat a_off a_shp a_str]. rewrite c_places. generalize 0. induction (prodn (shp t)) as [|n IH]; intros s; [constructor|]. cbn [seq map]. constructor; [|apply IH].
  intros H. apply in_map_iff in H as (k & E & H). apply in_seq in H. lia.
Qed.
Lemma new_einsum_ok {A} (ref : pystr -> list (tensor A) -> result (tensor A)) : (forall eq ts t, Forall wf ts -> ref eq ts = Ok t -> wf t) -> einsum_in_memory (new_einsum ref) ref.
Proof.
  intros Hw mem eq vs ts F. unfold new_einsum. destruct (read_all mem vs ts F) as [-> W]. cbn [bind]. destruct (ref eq ts) as [t|ex] eqn:E; [|reflexivity]. cbn.
  split; [apply fresh_shows; eauto|]. split; [eexists; reflexivity|apply fresh_NoDup].
Qed.
Lemma ref_einsum_wf {A} (add mul : A -> A -> A) zero one eq ts t : ref_einsum add mul zero one eq ts = Ok t -> wf t.
Proof. unfold ref_einsum. intros H. apply bind_Ok in H as [[Ts R] [_ H]]. injection H as <-. unfold wf. cbn [dat shp]. rewrite map_length, indices_length. reflexivity. Qed.
Lemma ref_iadd_keeps {A} (add : A -> A -> A) zero : keeps_shape (ref_iadd add zero).
Proof. intros t c t' _ _ H. injection H as <-. split; [|reflexivity]. unfold wf. cbn [dat shp]. rewrite map_length, indices_length. reflexivity. Qed.

(** *** reducing layers *)
Section Reduced.
  Context {A : Type} (mem : memory A) (nocopy : list nat -> list Z -> list nat -> option (list Z)) (r : runtime A) (Hok : runtime_ok r).
  Lemma layer_new os pattern s sizes (M : layer (array A)) x y w L R e len :
    (forall n, orders_ok (os n)) -> NoDup (map fst sizes) ->
    make_layer (rt_unicode r) os pattern (RStr s) sizes = Ok M -> op_role (op_of (RStr (T := array A) s)) = Some w ->
    call_ok (rt_unicode r) w pattern sizes (a_shp x) L R e len -> missing (left_groups e L) (right_groups e L R) <> [] ->
    v_call_layer mem nocopy r M x = Ok y -> own_buffer y.
  Proof.
    intros Hos Hn HM Hw Hc Hmiss.
    destruct (cooked_known (rt_unicode r) (ro_unicode _ Hok) (os (length (a_shp x))) (Hos _) pattern (op_of (RStr (T := array A) s)) sizes (a_shp x) w L R e len Hn Hw Hc) as (rc & k & E1 & E2 & J1 & J2 & J3 & J4 & J5 & J6).
    unfold make_layer in HM. apply bind_Ok in HM as [recipes [HM E]]. injection E as <-.
    apply all_dims_ok in HM as (l & rr & Hpre & HM); [|apply Hok|exact Hos].
    destruct (Hpre 0) as [Hrd _ _ _ _ _]. destruct (reads_fun (rt_unicode r) (ro_unicode _ Hok) pattern l rr L R Hrd (co_reads _ _ _ _ _ _ _ _ _ Hc)) as [-> ->].
    assert (G := prep_get (rt_unicode r) pattern (op_of (RStr (T := array A) s)) (map fst sizes) os _ recipes (length (a_shp x)) HM). rewrite E1 in G.
    assert (Hk : k_reduced k <> []) by (rewrite J3; intros X; apply Hmiss; destruct (missing (left_groups e L) (right_groups e L R)); [reflexivity|discriminate]).
    assert (St : forall v3 z : array A, a_buf z = a_buf v3 \/ own_buffer z -> own_buffer v3 -> own_buffer z) by (intros v3 z; apply new_stays).
    unfold v_call_layer, v_torch_apply, v_mixin_apply, v_recipe_for. cbn [ly_recipes ly_red ly_sizes].
    destruct (in_dec Nat.eq_dec (length (a_shp x)) (fitting_ranks L)) as [Hi|Hi].
    2:{ destruct (rt_framework r); rewrite G; discriminate. }
    assert (Mx : apply_recipe int_ops (array_backend mem nocopy r) rc x (RStr s) sizes = Ok y -> own_buffer y).
    { unfold apply_recipe. cbn [b_shape array_backend]. rewrite E2. cbn [bind]. unfold apply_cooked. intros H.
      apply bind_Ok in H as [v1 [_ H]]. apply bind_Ok in H as [v2 [_ H]]. apply bind_Ok in H as [v3 [E3 H]]. apply v_tail_buf in H as [H _]. apply (St v3 y H).
      destruct (k_reduced k) as [|a q]; [contradiction|]. cbn [reduce_axes] in E3. apply bind_Ok in E3 as [_ [_ E3]]. apply bind_Ok in E3 as [_ [_ E3]]. eapply compute_new, E3. }
    assert (Sx : v_scriptable_apply mem nocopy r rc x (RStr s) sizes = Ok y -> own_buffer y).
    { unfold v_scriptable_apply. set (r' := with_framework r TorchJit). cbn [b_shape array_backend]. rewrite E2. cbn [bind]. intros H.
      apply bind_Ok in H as [v1 [_ H]]. apply bind_Ok in H as [v2 [_ H]]. apply bind_Ok in H as [v3 [E3 H]].
      assert (H' : (a_buf y = a_buf v3 \/ own_buffer y) /\ (k_added k <> [] -> expands (rt_framework r') = false -> own_buffer y)) by (apply (v_tail_buf mem nocopy r' k); rewrite <- H; destruct (k_added k); reflexivity).
      apply (St v3 y (proj1 H')). destruct (k_reduced k) as [|a q]; [contradiction|]. eapply compute_new, E3. }
    destruct (rt_framework r); rewrite G; cbn [of_option bind]; auto.
  Qed.
End Reduced.

(** *** a library whose einsum may return its operand *)
Definition t_eqb (t u : tensor Z) : bool := list_eqb Nat.eqb (shp t) (shp u) && list_eqb Z.eqb (dat t) (dat u).
Fixpoint all_different (l : list Z) : bool := match l with [] => true | k :: l => negb (existsb (Z.eqb k) l) && all_different l end.
Lemma all_different_NoDup l : all_different l = true -> NoDup l.
Proof.
  induction l as [|k l IH]; intros H; [constructor|]. cbn in H. apply andb_true_iff in H as [H1 H2]. constructor; [|apply IH, H2].
  intros Hi. apply negb_true_iff in H1. rewrite <- not_true_iff_false in H1. apply H1. apply existsb_exists. exists k. split; [exact Hi|apply Z.eqb_refl].
Qed.
Definition alias_einsum (ref : pystr -> list (tensor Z) -> result (tensor Z)) (mem : memory Z) (eq : pystr) (vs : list (array Z)) : result (array Z) :=
  let* ts := mapM (read mem) vs in
  let* t := ref eq ts in
  match vs, ts with v :: _, t0 :: _ => if t_eqb t t0 && all_different (dat (places v)) then Ok v else Ok (fresh t) | _, _ => Ok (fresh t) end.
Lemma alias_values ref : (forall eq ts t, Forall wf ts -> ref eq ts = Ok t -> wf t) -> einsum_shows (alias_einsum ref) ref.
Proof.
  intros Hw mem eq vs ts F. unfold alias_einsum. destruct (read_all mem vs ts F) as [-> W]. cbn [bind]. destruct (ref eq ts) as [t|ex] eqn:E; [|reflexivity]. cbn [bind].
  assert (Hf : shows mem (fresh t) t /\ NoDup (dat (places (fresh t)))) by (split; [apply fresh_shows; eauto|apply fresh_NoDup]).
  destruct F as [|v t0 vs ts Hv F]; [exact Hf|]. destruct (t_eqb t t0) eqn:Et; [|exact Hf]. cbn [andb]. destruct (all_different (dat (places v))) eqn:Ed; [|exact Hf]. cbn.
  split; [|apply all_different_NoDup, Ed].
  unfold t_eqb in Et. apply andb_true_iff in Et as [E1 E2]. destruct t as [s d], t0 as [s0 d0]. cbn [shp dat] in E1, E2.
  apply (list_eqb_eq Nat.eqb (fun a b => proj1 (Nat.eqb_eq a b))) in E1. apply (list_eqb_eq Z.eqb (fun a b => proj1 (Z.eqb_eq a b))) in E2. subst. exact Hv.
Qed.

(** *** in the words of the theorems *)
Lemma Reduce_made {T} U os pattern (red : reduction T) sizes M : Reduce U os pattern red sizes = Ok M -> make_layer U os pattern red sizes = Ok M.
Proof. unfold Reduce. intros H. apply bind_Ok in H as [_ [_ H]]. exact H. Qed.
Lemma Rearrange_made {T} U os pattern sizes (M : layer T) : Rearrange U os pattern sizes = Ok M -> make_layer U os pattern (RStr s_rearrange) sizes = Ok M.
Proof. unfold Rearrange. intros H. apply bind_Ok in H as [_ [_ H]]. exact H. Qed.
Lemma rearrange_is_function {A} (mem : memory A) nocopy (r : runtime A) (Hok : runtime_ok r) os pattern sizes (M : layer (array A)) x L R e len :
  (forall n, orders_ok (os n)) -> NoDup (map fst sizes) -> no_reserved sizes -> Rearrange (rt_unicode r) os pattern sizes = Ok M ->
  call_ok (rt_unicode r) Rearranging pattern sizes (a_shp x) L R e len -> e < 8 ->
  v_call_layer mem nocopy r M x = v_rearrange mem nocopy r (One x) pattern sizes.
Proof.
  intros Hos Hn Hres HM Hc He. apply Rearrange_made in HM.
  apply (layer_is_function mem nocopy r Hok os pattern (RStr s_rearrange) sizes M x Rearranging L R e len Hos Hn Hres HM eq_refl Hc He).
  eapply (MainFacts3.no_missing (A := unit) (rt_unicode r) (ro_unicode _ Hok) pattern sizes (mkT (a_shp x) []) Rearranging); [exact Hc|discriminate].
Qed.
Lemma einmix_call_memory {A} (mem : memory A) nocopy (Hnc : nocopy_ok nocopy) (r : runtime A) ip lib ref iadd (Hl : einsum_in_memory lib ref) (Ha : keeps_shape iadd)
    U os os' pattern wt bt sizes (M : einmix (array A)) (M' : einmix (tensor A)) w w' b b' x x' :
  EinMix U os os' pattern wt bt sizes = Ok M -> EinMix U os os' pattern wt bt sizes = Ok M' -> shows mem x x' -> shows mem w w' -> option_shows mem b b' ->
  both (fun '(mem', y) y' => mem' = mem /\ shows mem y y' /\ own_buffer y) (v_call_einmix mem nocopy r ip lib iadd M w b x) (call_einmix r ref iadd M' w' b' x').
Proof.
  intros HM HM' Hx Hw Hb. pose proof (EinMix_show mem U os os' pattern wt bt sizes) as S. rewrite HM, HM' in S. destruct (EinMix_named _ _ _ _ _ _ _ _ HM) as [_ Hp].
  pose proof (einmix_memory mem nocopy Hnc r ip lib ref iadd Hl Ha M M' w w' b b' x x' S Hp Hx Hw Hb) as G.
  destruct (v_call_einmix mem nocopy r ip lib iadd M w b x) as [[mem' y]|e]; exact G.
Qed.
Lemma einmix_made_both {A} (mem : memory A) U os os' pattern wt bt sizes :
  both (fun (M : einmix (array A)) (M' : einmix (tensor A)) => em_einsum M = em_einsum M' /\ em_weight M = em_weight M' /\ em_bias M = em_bias M')
    (EinMix U os os' pattern wt bt sizes) (EinMix U os os' pattern wt bt sizes).
Proof.
  pose proof (EinMix_show mem U os os' pattern wt bt sizes) as S. destruct (EinMix U os os' pattern wt bt sizes) as [M|], (EinMix U os os' pattern wt bt sizes) as [M'|]; cbn in S |- *; try contradiction; [|exact S].
  destruct S as (S1 & S2 & S3 & _). auto.
Qed.

(** the case of C79_alias_refuted *)
Definition four : memory Z := fun id => match id with 0 => [10; 20]%Z | 1 => [1]%Z | _ => [3; 4]%Z end.
Definition in_x : array Z := mkArr (Old 0) 0 [2] [1]%Z.
Definition in_w : array Z := mkArr (Old 1) 0 [] [].
Definition in_b : array Z := mkArr (Old 2) 0 [2] [1]%Z.
Lemma alias_changes :
  exists M mem' y, EinMix (rt_unicode torch_like) (fun _ => rt_orders torch_like) (fun _ => rt_orders torch_like) (lit "a -> a") (lit "") (Some (lit "a")) [(lit "a", 2%Z)] = Ok M /\
    v_call_einmix four simple_nocopy torch_like true (alias_einsum (ref_einsum Z.add Z.mul 0%Z 1%Z)) (ref_iadd Z.add 0%Z) M in_w (Some in_b) in_x = Ok (mem', y) /\
    read mem' y = Ok (mkT [2] [13; 24]%Z) /\ read four in_x = Ok (mkT [2] [10; 20]%Z) /\ read mem' in_x = Ok (mkT [2] [13; 24]%Z).
Proof.
  destruct (EinMix (T := array Z) (rt_unicode torch_like) (fun _ => rt_orders torch_like) (fun _ => rt_orders torch_like) (lit "a -> a") (lit "") (Some (lit "a")) [(lit "a", 2%Z)]) as [M|] eqn:E; [|vm_compute in E; discriminate].
  exists M. vm_compute in E. injection E as <-.
  eexists. eexists. split; [reflexivity|]. split; [vm_compute; reflexivity|]. vm_compute. auto.
Qed.
