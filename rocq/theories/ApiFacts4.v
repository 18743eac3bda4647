(** * Lists of tensors, the array API, frameworks and callables *)
From Verif Require Import Py Tensor ListFacts TensorFacts SpecSem SpecGrammar SpecPattern SpecOps Parsing Compile Recipe Ops Backends Api StepFacts ParseFacts ParseFacts2 ParseFacts3 RecipeFacts InferFacts ApplyFacts FrontFacts FrontFacts2 FrontFacts3 MainFacts MainFacts2 ReduceFacts MainFacts3 CallFacts RelabelFacts Laws ApiFacts ApiFacts2 ApiFacts3.

(** ** a tensor for every total description *)
Lemma grepr_make {A} gs len (f : (label -> nat) -> result A) : NoDup (concat gs) -> looks_at (concat gs) f ->
  (forall ix, within len ix (concat gs) -> exists a, f ix = Ok a) -> exists y, grepr y gs len f.
Proof.
  intros Hn Hl Ht.
  destruct (tabulate_total (map len (concat gs)) (fun idx => f (assign label_eqb (fun _ => 0) (concat gs) idx))) as [t Et].
  { intros idx Hi. apply Ht.
    apply (within_assign label_eqb label_eqb_eq); auto. }
  apply tabulate_Ok in Et as [Hw [Hs Hg]]. destruct t as [s d].
  exists (mkT (gshape len gs) d). apply (repr_grepr len gs f s d). split; auto. split; auto.
  intros ix Hi. rewrite Hg by (apply inb_map; auto). apply Hl. intros l Hl'.
  destruct (assign_in label_eqb label_eqb_eq (fun _ => 0) (concat gs) (map ix (concat gs)) l Hl') as [k [H1 ->]].
  apply (nth_error_nth _ _ 0). rewrite nth_error_map, H1. reflexivity.
Qed.

(** ** stacking *)
Lemma flat_map_length_const {B C} (g : B -> list C) n l : (forall b, In b l -> length (g b) = n) -> length (flat_map g l) = length l * n.
Proof. intros H. induction l as [|b l IH]; auto. simpl. rewrite app_length, (H b) by (simpl; auto). rewrite IH; auto. intros; apply H; simpl; auto. Qed.
Lemma flat_map_nth {B C} (g : B -> list C) n l k j b : (forall b, In b l -> length (g b) = n) -> nth_error l k = Some b -> j < n ->
  nth_error (flat_map g l) (k * n + j) = nth_error (g b) j.
Proof.
  revert k; induction l as [|c l IH]; intros k H Hk Hj; [destruct k; discriminate|].
  destruct k as [|k]; simpl in Hk |- *.
  - inversion Hk; subst. rewrite nth_error_app1; auto. rewrite H; simpl; auto.
  - rewrite nth_error_app2 by (rewrite H; simpl; auto; lia). rewrite H by (simpl; auto).
    replace (n + k * n + j - n) with (k * n + j) by lia. apply IH; auto. intros; apply H; simpl; auto.
Qed.

Lemma shape_eqb_eq a b : shape_eqb a b = true <-> a = b.
Proof. unfold shape_eqb. destruct (list_eq_dec Nat.eq_dec a b); split; auto; discriminate. Qed.

Section Stack.
  Context {A : Type}.
  Implicit Types (ts : list (tensor A)) (s : list nat).

  Lemma stack_Ok ts s : ts <> [] -> (forall t, In t ts -> wf t /\ shp t = s) ->
    exists t, t_stack ts = Ok t /\ wf t /\ shp t = length ts :: s /\
      forall k i t', nth_error ts k = Some t' -> get t (k :: i) = get t' i.
  Proof.
    intros Hne H. destruct ts as [|t0 ts]; [congruence|]. unfold t_stack.
    assert (H0 : shp t0 = s) by (apply H; left; auto). rewrite H0.
    assert (E : forallb (fun t => shape_eqb (shp t) s) (t0 :: ts) = true).
    { apply forallb_forall. intros t Ht. apply shape_eqb_eq. apply H; auto. }
    rewrite E. eexists. split; [reflexivity|].
    assert (Hd : forall b, In b (t0 :: ts) -> length (dat b) = prodn s).
    { intros b Hb. destruct (H b Hb) as [Hw Hs]. unfold wf in Hw. rewrite Hw, Hs. auto. }
    split; [|split; auto].
    - unfold wf. cbn [dat shp]. rewrite (flat_map_length_const _ (prodn s)) by auto. reflexivity.
    - intros k i t' Hk. unfold get. cbn [shp dat]. destruct (H t' (nth_error_In _ _ Hk)) as [_ Hs]. rewrite Hs.
      cbn [inb ravel]. assert (Hlt : k < length (t0 :: ts)) by (apply nth_error_Some; congruence).
      apply Nat.ltb_lt in Hlt. rewrite Hlt. cbn [andb]. destruct (inb s i) eqn:Ei; auto.
      apply flat_map_nth; auto. apply ravel_lt; auto.
  Qed.

  Lemma stack_inv ts t : t_stack ts = Ok t -> ts <> [] /\ exists s, forall t', In t' ts -> shp t' = s.
  Proof.
    destruct ts as [|t0 ts]; [discriminate|]. intros H. split; [discriminate|]. exists (shp t0). intros t' Ht.
    unfold t_stack in H. destruct (forallb _ (t0 :: ts)) eqn:E; [|discriminate].
    rewrite forallb_forall in E. apply shape_eqb_eq, E; auto.
  Qed.

  Lemma stack_err ts : ts <> [] -> (forall s, exists t, In t ts /\ shp t <> s) -> t_stack ts = Err BackendError.
  Proof.
    intros Hne H. destruct (t_stack ts) as [t|e] eqn:E.
    - apply stack_inv in E as [_ [s Hs]]. destruct (H s) as [t' [H1 H2]]. exfalso; auto.
    - unfold t_stack in E. destruct ts; [congruence|]. destruct (forallb _ _); congruence.
  Qed.

  Lemma stack_data ts t : t_stack ts = Ok t -> dat t = flat_map dat ts.
  Proof.
    unfold t_stack. destruct ts; [discriminate|]. destruct (forallb _ _); [|discriminate]. intros [= <-]. reflexivity.
  Qed.
End Stack.

Section Laws4.
  Context {A : Type} (r : runtime A) (Hok : runtime_ok r).
  Notation U := (rt_unicode r).
  Notation f := (rt_framework r).
  Implicit Types (x y z : tensor A) (pattern : pystr) (sizes : list (pystr * Z)).
  Let HU : unicode_ok U := ro_unicode r Hok.

  (** ** when does reduce succeed *)
  Lemma reduce_accepts x pattern s sizes : NoDup (map fst sizes) -> wf x ->
    str_mem s reductions = true -> (one_by_one f s = true -> splits (rt_red r s)) ->
    (s = lit "mean" -> forall t, rt_isf r t = true) ->
    ((exists y, reduce r (One x) pattern (RStr s) sizes = Ok y) <->
     no_reserved sizes /\ exists L R e len, call_ok U Reducing pattern sizes (shp x) L R e len /\
       let gl := left_groups e L in let gr := right_groups e L R in
       (missing gl gr <> [] -> has_reduction f s = true /\
          forall ix, within len ix (concat gr) -> exists vs v,
            elements x len gl (missing gl gr) ix = map Some vs /\ rt_red r s vs = Ok v)).
  Proof.
    intros Hn Hw Hs Hsp Hmean. split.
    - intros [y H]. destruct (reduce_sound r Hok x pattern s sizes y Hn Hw Hs H) as [H1 [L [R [e [len Hc]]]]].
      split; auto. exists L, R, e, len. split; auto. intros gl gr Hm.
      apply (reduce_iff r Hok x pattern s sizes L R e len y Hn Hw H1 Hs Hsp Hmean Hc) in H. destruct H as [[H _]|[_ [H2 [_ [_ H3]]]]]; [exfalso; apply Hm; exact H|].
      split; auto. intros ix Hix. destruct (H3 ix Hix) as [vs [v [E1 [E2 _]]]]. exists vs, v. auto.
    - intros [H1 [L [R [e [len [Hc Hm]]]]]]. cbv zeta in Hm.
      set (gl := left_groups e L) in *. set (gr := right_groups e L R) in *.
      assert (D : missing gl gr = [] \/ missing gl gr <> []) by (destruct (missing gl gr); [left; auto|right; discriminate]).
      destruct D as [D|D].
      + destruct (api_moves_ex U HU (rt_orders r) (ro_orders r Hok) (rt_lib r) (rt_red r) (rt_isf r) (rt_num r) f x pattern sizes Hn Hw H1 (RStr s) Reducing L R e len (role_of_red s Hs) Hc D) as [y [E _]].
        exists y. exact E.
      + destruct (Hm D) as [Hh Hv].
        assert (Hgr : NoDup (concat gr)) by (eapply (call_gr_NoDup U pattern sizes x); eauto).
        assert (Hinc : incl (concat gr) (concat gl)).
        { intros a Ha. assert (E : kept gl gr = concat gr) by (eapply all_kept; eauto; discriminate).
          rewrite <- E in Ha. apply in_kept in Ha. tauto. }
        destruct (grepr_make gr len (reduced_value label_eqb (rt_red r s) (fun ix => getr x (gindex len ix gl)) len (missing gl gr))) as [y Hy]; auto.
        * intros ix ix' Hl. unfold reduced_value. f_equal. apply mapM_ext_in. intros v Hv'. f_equal. apply gindex_same.
          intros l Hl'. apply (assign_ext label_eqb label_eqb_eq). intros Hnm. apply Hl.
          destruct (in_dec label_eq_dec l (concat gr)) as [Hi|Hi]; auto. exfalso. apply Hnm. apply in_missing. auto.
        * intros ix Hix. destruct (Hv ix Hix) as [vs [v [E1 E2]]]. exists v. unfold reduced_value.
          apply elements_mapM in E1. rewrite E1. exact E2.
        * exists y. apply (reduce_iff r Hok x pattern s sizes L R e len y Hn Hw H1 Hs Hsp Hmean Hc). right. split; auto. split; auto.
          apply reduces_grepr. exact Hy.
  Qed.

  (** ** lists of tensors *)
  Lemma many_stack rd ts t pattern sizes : t_stack ts = Ok t ->
    api_reduce U (rt_orders r) int_ops (rt_backend r) (Many ts) pattern rd sizes =
    api_reduce U (rt_orders r) int_ops (rt_backend r) (One t) pattern rd sizes.
  Proof.
    intros H. rewrite api_many.
    assert (E : match ts with [] => Err TypeError | _ => b_stack (rt_backend r) ts end = Ok t).
    { destruct ts; [discriminate|]. rewrite <- H. unfold rt_backend. destruct f; reflexivity. }
    rewrite E. cbn [bind]. destruct (check_kwargs reserved_kwargs sizes) as [[]|ex] eqn:Ek; auto.
    unfold api_reduce. rewrite Ek. reflexivity.
  Qed.

  Lemma many_err rd ts ex pattern sizes : no_reserved sizes ->
    (ts = [] /\ ex = TypeError \/ ts <> [] /\ t_stack ts = Err ex) ->
    api_reduce U (rt_orders r) int_ops (rt_backend r) (Many ts) pattern rd sizes = Err ex.
  Proof.
    intros Hres H. rewrite api_many. apply check_kwargs_iff in Hres. rewrite Hres. cbn [bind].
    destruct H as [[-> ->]|[Hne H]]; auto.
    assert (E : match ts with [] => Err TypeError | _ => b_stack (rt_backend r) ts end = Err ex).
    { destruct ts; [congruence|]. rewrite <- H. unfold rt_backend. destruct f; reflexivity. }
    rewrite E. reflexivity.
  Qed.

  Lemma many_empty_type rd pattern sizes :
    api_reduce U (rt_orders r) int_ops (rt_backend r) (Many []) pattern rd sizes = Err TypeError.
  Proof.
    rewrite api_many. unfold check_kwargs, raise_if. destruct (existsb _ sizes); reflexivity.
  Qed.

  (** ** callables *)
  Lemma callable_eq x pattern sizes L R e len : NoDup (map fst sizes) -> wf x -> no_reserved sizes ->
    call_ok U Reducing pattern sizes (shp x) L R e len ->
    let gl := left_groups e L in let gr := right_groups e L R in
    exists t2, spread gl (concat gr ++ missing gl gr) len x t2 /\
      forall g, reduce r (One x) pattern (RCall g) sizes =
        (let* t3 := match missing gl gr with
                    | [] => Ok t2
                    | _ => g t2 (seq (length (concat gr)) (length (missing gl gr)))
                    end in reshape_to (rt_lib r) gr len t3).
  Proof.
    intros Hn Hw Hres Hc gl gr.
    assert (Ek : kept gl gr = concat gr) by (eapply all_kept; eauto; discriminate).
    assert (Hnd : NoDup (kept gl gr ++ missing gl gr)) by (eapply (split_NoDup U (fun t _ => Ok t) pattern sizes x); eauto).
    assert (H : forall g, exists t2, repr t2 (kept gl gr ++ missing gl gr) len (fun ix => getr x (gindex len ix gl)) /\
      reduce r (One x) pattern (RCall g) sizes =
        (let* t3 := match missing gl gr with
                    | [] => Ok t2
                    | _ => g t2 (seq (length (concat gr)) (length (missing gl gr)))
                    end in reshape_to (rt_lib r) gr len t3)).
    { intros g. unfold reduce, rt_backend. rewrite (api_good U (rt_orders r) (rt_lib r) (rt_red r) (rt_isf r) (rt_num r) f x pattern sizes Hres (RCall g)).
      destruct (core_eq U HU (rt_orders r) (ro_orders r Hok) (rt_lib r)
        (fun t axes => reduce_axes (backend_of (rt_lib r) (rt_red r) (rt_isf r) (rt_num r) f) t (RCall g) axes)
        (b_add_axes (backend_of (rt_lib r) (rt_red r) (rt_isf r) (rt_num r) f)) pattern OpCallable sizes x Hn Reducing L R e len eq_refl Hw (be_adds _ _ _ _ _) Hc)
        as [t2 [fin [R2 [E [_ Hfin]]]]].
      exists t2. split; auto. cbn [op_of]. rewrite E. fold gl gr. rewrite Ek.
      destruct (missing gl gr); apply bind_ext; intros t3 _; apply Hfin; discriminate. }
    destruct (H (fun t _ => Ok t)) as [t2 [R2 _]]. exists t2. split.
    - rewrite <- Ek. destruct R2 as [R1 [R2 R3]]. split; auto. split; auto. intros ix Hix. apply (of_option_inj BackendError), R3; auto.
    - intros g. destruct (H g) as [t2' [R2' E']]. assert (t2' = t2) as -> by (eapply (repr_unique label_eqb label_eqb_eq); eauto). exact E'.
  Qed.

  Lemma callable_sound x pattern g sizes y : NoDup (map fst sizes) -> wf x ->
    reduce r (One x) pattern (RCall g) sizes = Ok y ->
    no_reserved sizes /\ exists L R e len, call_ok U Reducing pattern sizes (shp x) L R e len.
  Proof.
    intros Hn Hw H.
    destruct (api_sound U HU (rt_orders r) (ro_orders r Hok) (rt_lib r) (rt_red r) (rt_isf r) (rt_num r) f x pattern (RCall g) sizes y Hn Hw) as [H1 [w [L [R [e [len [Ew Hc]]]]]]]; auto.
    - intros _ E. discriminate.
    - split; auto. inversion Ew; subst. eauto 10.
  Qed.

  (** ** the array API *)
  Lemma xp_moves rd w x pattern sizes L R e len y : NoDup (map fst sizes) -> wf x -> no_reserved sizes ->
    op_role (op_of rd) = Some w -> call_ok U w pattern sizes (shp x) L R e len ->
    missing (left_groups e L) (right_groups e L R) = [] ->
    (aa_reduce U (rt_orders r) (rt_ns r) (One x) pattern rd sizes = Ok y <-> moves (left_groups e L) (right_groups e L R) len x y).
  Proof.
    intros Hn Hw Hres Er Hc Hm. unfold rt_ns. rewrite aa_core. apply check_kwargs_iff in Hres. rewrite Hres. cbn [bind].
    apply (core_moves_iff U HU (rt_orders r) (ro_orders r Hok) (rt_lib r) _ aa_add pattern (op_of rd) sizes x Hn aa_adds_axes Hw w Er L R e len Hc y Hm).
  Qed.

  Lemma xp_reduces s x pattern sizes L R e len y : NoDup (map fst sizes) -> wf x -> no_reserved sizes ->
    str_mem s reductions = true -> call_ok U Reducing pattern sizes (shp x) L R e len ->
    missing (left_groups e L) (right_groups e L R) <> [] ->
    (aa_reduce U (rt_orders r) (rt_ns r) (One x) pattern (RStr s) sizes = Ok y <-> reduces (rt_red r s) (left_groups e L) (right_groups e L R) len x y).
  Proof.
    intros Hn Hw Hres Hs Hc Hm. unfold rt_ns. rewrite aa_core. apply check_kwargs_iff in Hres. rewrite Hres. cbn [bind].
    rewrite (core_reduces_iff U HU (rt_orders r) (ro_orders r Hok) (rt_lib r) (aa_reduce_axes (rt_red r) (RStr s)) aa_add pattern (OpStr s) sizes x Hn aa_adds_axes Hw Reducing (@role_of_red A s Hs) L R e len Hc True (rt_red r s) y); auto; [tauto|].
    intros t t' k m _ _ _. cbn [aa_reduce_axes]. rewrite Hs. cbn [negb raise_if bind]. tauto.
  Qed.

  Lemma xp_callable g x pattern sizes L R e len : NoDup (map fst sizes) -> wf x -> no_reserved sizes ->
    call_ok U Reducing pattern sizes (shp x) L R e len ->
    aa_reduce U (rt_orders r) (rt_ns r) (One x) pattern (RCall g) sizes = reduce r (One x) pattern (RCall g) sizes.
  Proof.
    intros Hn Hw Hres Hc. destruct (callable_eq x pattern sizes L R e len Hn Hw Hres Hc) as [t2 [[S1 [S2 S3]] E]]. rewrite E.
    unfold rt_ns. rewrite aa_core. apply check_kwargs_iff in Hres. rewrite Hres. cbn [bind].
    destruct (core_eq U HU (rt_orders r) (ro_orders r Hok) (rt_lib r) (aa_reduce_axes (rt_red r) (RCall g)) aa_add pattern OpCallable sizes x Hn Reducing L R e len eq_refl Hw aa_adds_axes Hc)
        as [t2' [fin [R2 [E' [_ Hfin]]]]].
    cbn [op_of]. rewrite E'. set (gl := left_groups e L) in *. set (gr := right_groups e L R) in *.
    assert (Ek : kept gl gr = concat gr) by (eapply all_kept; eauto; discriminate).
    assert (Hnd : NoDup (kept gl gr ++ missing gl gr)) by (eapply (split_NoDup U (fun t _ => Ok t) pattern sizes x); eauto).
    assert (t2' = t2) as ->.
    { eapply (repr_unique label_eqb label_eqb_eq); eauto. rewrite Ek. split; auto. split; auto.
      intros ix Hix. unfold getr. f_equal. auto. }
    rewrite Ek. cbn [aa_reduce_axes]. destruct (missing gl gr); apply bind_ext; intros t3 _; apply Hfin; discriminate.
  Qed.

  Lemma xp_agrees rd x pattern sizes y : NoDup (map fst sizes) -> wf x ->
    match rd with
    | RStr s => (s = s_repeat -> repeat_sizes_ok r pattern sizes) /\ (str_mem s reductions = true -> one_by_one f s = true -> splits (rt_red r s))
    | RCall _ => True
    end ->
    api_reduce U (rt_orders r) int_ops (rt_backend r) (One x) pattern rd sizes = Ok y ->
    aa_reduce U (rt_orders r) (rt_ns r) (One x) pattern rd sizes = Ok y.
  Proof.
    intros Hn Hw Hrd H. destruct rd as [s|g].
    - destruct Hrd as [Hrep Hsp].
      destruct (api_sound U HU (rt_orders r) (ro_orders r Hok) (rt_lib r) (rt_red r) (rt_isf r) (rt_num r) f x pattern (RStr s) sizes y Hn Hw) as [H1 [w [L [R [e [len [Ew Hc]]]]]]]; auto.
      { intros Hx Er. apply Hrep; auto. revert Er. unfold op_role. cbn [op_of].
        destruct (str_eqb s s_rearrange); [discriminate|]. destruct (str_eqb s s_repeat) eqn:E; [|destruct (str_mem s reductions); discriminate].
        intros _. apply str_eqb_eq; auto. }
      assert (D : missing (left_groups e L) (right_groups e L R) = [] \/ missing (left_groups e L) (right_groups e L R) <> [])
        by (destruct (missing _ _); [left; auto|right; discriminate]).
      destruct D as [D|D].
      + apply (xp_moves (RStr s) w x pattern sizes L R e len y); auto.
        apply (api_moves U HU (rt_orders r) (ro_orders r Hok) (rt_lib r) (rt_red r) (rt_isf r) (rt_num r) f x pattern sizes Hn Hw H1 (RStr s) w L R e len y); auto.
      + assert (w = Reducing) as -> by (destruct (role_cases w) as [E|E]; auto; exfalso; apply D; eapply no_missing; eauto).
        assert (Hs : str_mem s reductions = true).
        { revert Ew. unfold op_role. cbn [op_of]. destruct (str_eqb s s_rearrange); [discriminate|].
          destruct (str_eqb s s_repeat); [discriminate|]. destruct (str_mem s reductions); auto; discriminate. }
        apply (xp_reduces s x pattern sizes L R e len y); auto.
        apply (reduce_reduces r Hok x pattern s sizes y Hn Hw Hs (Hsp Hs)) in H as [L1 [R1 [e1 [len1 [[Hc1 Hu] [_ Hred]]]]]].
        destruct (Hu L R e len (co_reads _ _ _ _ _ _ _ _ _ Hc) (co_rank _ _ _ _ _ _ _ _ _ Hc) (co_fits _ _ _ _ _ _ _ _ _ Hc)) as [-> [-> [-> Hsame]]].
        apply (reduces_len _ _ _ len1 len); auto.
    - destruct (callable_sound x pattern g sizes y Hn Hw H) as [H1 [L [R [e [len Hc]]]]].
      rewrite (xp_callable g x pattern sizes L R e len); auto.
  Qed.

  Lemma xp_agrees_many rd ts pattern sizes y : NoDup (map fst sizes) -> (forall t, In t ts -> wf t) ->
    match rd with
    | RStr s => (s = s_repeat -> repeat_sizes_ok r pattern sizes) /\ (str_mem s reductions = true -> one_by_one f s = true -> splits (rt_red r s))
    | RCall _ => True
    end ->
    api_reduce U (rt_orders r) int_ops (rt_backend r) (Many ts) pattern rd sizes = Ok y ->
    aa_reduce U (rt_orders r) (rt_ns r) (Many ts) pattern rd sizes = Ok y.
  Proof.
    intros Hn Hw Hrd H. destruct (t_stack ts) as [t|ex] eqn:E.
    - rewrite (many_stack rd ts t pattern sizes E) in H. pose proof E as E0. apply stack_inv in E0 as [Hne [s Hs]].
      destruct (stack_Ok ts s Hne) as [t' [E' [Hwt _]]]; [intros t' Ht; auto|]. assert (t' = t) by congruence. subst t'.
      apply xp_agrees in H; auto. rewrite aa_many.
      assert (Ek : match ts with [] => Err TypeError | _ => xp_stack (rt_ns r) ts end = Ok t) by (destruct ts; [congruence|exact E]).
      rewrite Ek. cbn [bind]. destruct (check_kwargs reserved_kwargs sizes) as [[]|ex] eqn:Ec; auto.
      unfold aa_reduce in H. rewrite Ec in H. discriminate.
    - exfalso. rewrite api_many in H. apply bind_Ok in H as [[] [_ H]]. apply bind_Ok in H as [t [H _]].
      destruct ts; [discriminate|]. assert (b_stack (rt_backend r) (t0 :: ts) = t_stack (t0 :: ts)) by (unfold rt_backend; destruct f; reflexivity).
      congruence.
  Qed.
End Laws4.
