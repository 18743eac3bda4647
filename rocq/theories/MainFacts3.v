(** * What the operations return *)
From Verif Require Import Py Tensor ListFacts TensorFacts SpecSem SpecGrammar SpecPattern SpecOps Parsing Compile Recipe Ops Backends Api StepFacts ParseFacts ParseFacts2 ParseFacts3 RecipeFacts InferFacts ApplyFacts FrontFacts FrontFacts2 FrontFacts3 MainFacts MainFacts2 ReduceFacts.

Lemma of_option_inj {B} e (a b : option B) : of_option e a = of_option e b <-> a = b.
Proof. destruct a, b; simpl; split; congruence. Qed.

Lemma within_incl_iff {X} (len ix : X -> nat) l m : incl l m -> (within len ix (l ++ m) <-> within len ix m).
Proof.
  intros H. rewrite within_app. split; [tauto|]. intros W; split; auto. intros a Ha. apply W, H; auto.
Qed.

Lemma gindex_same (len ix ix' : label -> nat) gs : (forall l, In l (concat gs) -> ix l = ix' l) -> gindex len ix gs = gindex len ix' gs.
Proof.
  intros H. unfold gindex. apply map_ext_in. intros g Hg. f_equal. apply map_ext_in. intros l Hl. apply H, in_concat; eauto.
Qed.

Lemma gshape_same (len len' : label -> nat) gs : (forall l, In l (concat gs) -> len l = len' l) -> gshape len gs = gshape len' gs.
Proof.
  intros H. unfold gshape. apply map_ext_in. intros g Hg. f_equal. apply map_ext_in. intros l Hl. apply H, in_concat; eauto.
Qed.
Lemma gindex_len_same (len len' ix : label -> nat) gs : (forall l, In l (concat gs) -> len l = len' l) -> gindex len ix gs = gindex len' ix gs.
Proof.
  intros H. unfold gindex. apply map_ext_in. intros g Hg. f_equal. apply map_ext_in. intros l Hl. apply H, in_concat; eauto.
Qed.

Lemma missing_nil gl gr : missing gl gr = [] <-> incl (concat gl) (concat gr).
Proof.
  unfold missing. split.
  - intros H a Ha. destruct (existsb (label_eqb a) (concat gr)) eqn:E; [apply label_mem_In in E; auto|].
    exfalso. assert (X : In a (filter (fun a => negb (existsb (label_eqb a) (concat gr))) (concat gl))) by (apply filter_In; rewrite E; auto).
    rewrite H in X. destruct X.
  - intros H. destruct (filter _ _) as [|a l] eqn:E; auto. exfalso.
    assert (X : In a (filter (fun a => negb (existsb (label_eqb a) (concat gr))) (concat gl))) by (rewrite E; left; auto).
    apply filter_In in X as [X Y]. apply negb_true_iff in Y. apply H, label_mem_In in X. congruence.
Qed.
Lemma in_missing gl gr a : In a (missing gl gr) <-> In a (concat gl) /\ ~ In a (concat gr).
Proof.
  unfold missing. rewrite filter_In, negb_true_iff. split; intros [H1 H2]; split; auto.
  - intros X. apply label_mem_In in X. congruence.
  - destruct (existsb (label_eqb a) (concat gr)) eqn:E; auto. apply label_mem_In in E. tauto.
Qed.
Lemma in_kept gl gr a : In a (kept gl gr) <-> In a (concat gr) /\ In a (concat gl).
Proof. unfold kept. rewrite filter_In, label_mem_In. tauto. Qed.
Lemma kept_all gl gr : incl (concat gr) (concat gl) -> kept gl gr = concat gr.
Proof. intros H. unfold kept. apply filter_all. intros b Hb. apply label_mem_In; auto. Qed.

Lemma role_cases (w : role) : w = Reducing \/ w <> Reducing.
Proof. destruct w; auto; right; discriminate. Qed.

Section Meaning.
  Context {A : Type}.
  Implicit Types (x y : tensor A).

  Lemma moves_grepr gl gr len x y : incl (concat gl) (concat gr) ->
    (moves gl gr len x y <-> grepr y gr len (fun ix => getr x (gindex len ix gl))).
  Proof.
    intros H. unfold moves, grepr. split; intros [Hw [Hs Hg]]; repeat split; auto; intros ix Hi.
    - unfold getr. f_equal. apply Hg. apply within_incl_iff; auto.
    - apply (of_option_inj BackendError). apply Hg. apply within_incl_iff in Hi; auto.
  Qed.

  Lemma elements_mapM x len gl ms ix vs :
    elements x len gl ms ix = map Some vs <->
    mapM (fun r => getr x (gindex len (assign label_eqb ix ms r) gl)) (indices (map len ms)) = Ok vs.
  Proof.
    unfold elements. rewrite mapM_Ok_Forall2. generalize (indices (map len ms)) as l. intros l. revert vs.
    induction l as [|r l IH]; intros vs; split; intros H.
    - destruct vs; [constructor|discriminate].
    - inversion H; subst. reflexivity.
    - destruct vs as [|v vs]; [discriminate|]. cbn [map] in H. inversion H. constructor.
      + apply getr_get; auto.
      + apply IH; auto.
    - inversion H; subst. cbn [map]. f_equal; [apply getr_get; auto|apply IH; auto].
  Qed.

  Lemma reduces_grepr red gl gr len x y :
    reduces red gl gr len x y <->
    grepr y gr len (reduced_value label_eqb red (fun ix => getr x (gindex len ix gl)) len (missing gl gr)).
  Proof.
    unfold reduces, grepr. split; intros [Hw [Hs Hg]]; repeat split; auto; intros ix Hi.
    - destruct (Hg ix Hi) as [vs [v [E1 [E2 E3]]]]. apply elements_mapM in E1. unfold reduced_value. rewrite E1. cbn [bind].
      rewrite E2. apply getr_get; auto.
    - specialize (Hg ix Hi). destruct (getr_wf y (gindex len ix gr) Hw) as [v Hv]; [rewrite Hs; apply inb_gindex; auto|].
      rewrite Hv in Hg. symmetry in Hg. unfold reduced_value in Hg. apply bind_Ok in Hg as [vs [H1 H2]].
      exists vs, v. split; [apply elements_mapM; auto|]. split; auto. apply getr_get; auto.
  Qed.

  Lemma reduced_looks red gl gr len x :
    looks_at (concat gl ++ concat gr) (reduced_value label_eqb red (fun ix => getr x (gindex len ix gl)) len (missing gl gr)).
  Proof.
    intros ix ix' H. unfold reduced_value. f_equal. apply mapM_ext_in. intros r _. f_equal. apply gindex_same.
    intros l Hl. apply (assign_ext label_eqb label_eqb_eq). intros _. apply H, in_or_app; auto.
  Qed.

  Definition result_spec (red : list A -> result A) gl gr len x y : Prop :=
    match missing gl gr with [] => moves gl gr len x y | _ => reduces red gl gr len x y end.

  (** a way of reducing that gives what joint reduction with [red] gives *)
  Definition reduces_by (ok : Prop) (red : list A -> result A) (reduce_ : tensor A -> list nat -> result (tensor A)) : Prop :=
    forall t t' k m, wf t -> length (shp t) = k + m -> m <> 0 ->
      (reduce_ t (seq k m) = Ok t' <-> ok /\ t_reduce red t (seq k m) = Ok t').

  Section CoreSpec.
    Context (U : unicode) (HU : unicode_ok U) (o : orders) (Ho : orders_ok o) (lib : bool).
    Context (reduce_ : tensor A -> list nat -> result (tensor A)).
    Context (add_ : tensor A -> nat -> list (nat * Z) -> result (tensor A)).
    Context (pattern : pystr) (op : operation) (sizes : list (pystr * Z)) (x : tensor A).
    Context (Hns : NoDup (map fst sizes)) (Hadd : adds_axes add_) (Hwf : wf x).
    Context (w : role) (Hw : op_role op = Some w) (L R : expr) (e : nat) (len : label -> nat).
    Context (Hok : call_ok U w pattern sizes (shp x) L R e len).

    Notation call := (core_call U o lib reduce_ add_ pattern op sizes x).
    Notation gl := (left_groups e L).
    Notation gr := (right_groups e L R).

    Lemma no_missing : w <> Reducing -> missing gl gr = [].
    Proof.
      intros Hn. apply missing_nil. intros a Ha. destruct Hok as [Hr Hi Hd Hfl Hk Hnm H1 Hf Hdiv Hpl].
      apply (in_axes_gr U HU pattern L R e Hr Hd); [apply in_or_app; auto|].
      eapply none_missing; eauto. rewrite <- concat_map. apply in_map; auto.
    Qed.

    Lemma all_kept : w <> Repeating -> kept gl gr = concat gr.
    Proof.
      intros Hn. apply kept_all. intros a Ha. destruct Hok as [Hr Hi Hd Hfl Hk Hnm H1 Hf Hdiv Hpl].
      apply (in_axes_gl U HU pattern L R e Hr Hd); [apply in_or_app; auto|].
      eapply no_new; eauto. rewrite <- concat_map. apply in_map; auto.
    Qed.

    Lemma call_gl_NoDup : NoDup (concat gl).
    Proof. destruct Hok. eapply gl_NoDup; eauto. Qed.
    Lemma call_gr_NoDup : NoDup (concat gr).
    Proof. destruct Hok. eapply gr_NoDup; eauto. Qed.
    Lemma split_NoDup : NoDup (kept gl gr ++ missing gl gr).
    Proof.
      apply NoDup_app_iff. split; [apply NoDup_filter, call_gr_NoDup|]. split; [apply NoDup_filter, call_gl_NoDup|].
      intros a Ha Hb. apply in_kept in Ha. apply in_missing in Hb. tauto.
    Qed.

    Lemma core_moves : missing gl gr = [] -> exists y, call = Ok y /\ moves gl gr len x y.
    Proof.
      intros Hm. destruct (core_eq U HU o Ho lib reduce_ add_ pattern op sizes x Hns w L R e len Hw Hwf Hadd Hok)
        as [t2 [fin [R2 [E [Hfin _]]]]].
      rewrite Hm in *. cbn [bind] in E. rewrite app_nil_r in R2.
      destruct (Hfin t2 (fun ix => getr x (gindex len ix gl))) as [y [Ey Ry]]; auto.
      { intros ix ix' H. f_equal. apply gindex_same. intros l Hl. apply H, in_or_app; auto. }
      exists y. split; [congruence|]. apply moves_grepr; auto. apply missing_nil; auto.
    Qed.

    Lemma core_moves_iff y : missing gl gr = [] -> (call = Ok y <-> moves gl gr len x y).
    Proof.
      intros Hm. destruct (core_moves Hm) as [y0 [E M0]]. rewrite E. split; [intros H; inversion H; subst; auto|].
      intros M. f_equal. apply moves_grepr in M0, M; try (apply missing_nil; auto).
      eapply (grepr_unique label_eqb label_eqb_eq); eauto. apply call_gr_NoDup.
    Qed.

    Lemma core_reduces_iff ok red y : reduces_by ok red reduce_ -> missing gl gr <> [] ->
      (call = Ok y <-> ok /\ reduces red gl gr len x y).
    Proof.
      intros Hred Hm. assert (Hrole : w = Reducing) by (destruct (role_cases w); auto; exfalso; apply Hm, no_missing; auto).
      destruct (core_eq U HU o Ho lib reduce_ add_ pattern op sizes x Hns w L R e len Hw Hwf Hadd Hok)
        as [t2 [fin [R2 [E [Hfin _]]]]].
      assert (E' : call = let* t3 := reduce_ t2 (seq (length (kept gl gr)) (length (missing gl gr))) in fin t3)
        by (destruct (missing gl gr); [congruence|exact E]).
      assert (Hlen2 : length (shp t2) = length (kept gl gr) + length (missing gl gr)).
      { destruct R2 as [_ [Hs _]]. rewrite Hs, map_length, app_length. reflexivity. }
      assert (Hm0 : length (missing gl gr) <> 0) by (destruct (missing gl gr); [congruence|discriminate]).
      assert (W2 : wf t2) by apply R2.
      rewrite E'. split.
      - intros H. apply bind_Ok in H as [t3 [H3 Hf]]. apply (Hred t2 t3 _ _ W2 Hlen2 Hm0) in H3 as [Hk H3].
        split; auto. apply (reduce_repr label_eqb label_eqb_eq) with (3 := H3) in R2; [|apply split_NoDup].
        destruct (Hfin t3 _ (reduced_looks red gl gr len x) R2) as [y' [Ey Ry]].
        assert (y' = y) by congruence. subst y'. apply reduces_grepr; auto.
      - intros [Hk H]. apply reduces_grepr in H.
        destruct (reduce_total label_eqb label_eqb_eq red t2 _ _ _ _ split_NoDup R2) as [t3 H3].
        { intros ix Hi. rewrite all_kept in Hi by (rewrite Hrole; discriminate).
          destruct H as [Hw1 [Hs1 Hg1]]. rewrite <- Hg1 by auto. apply getr_wf; auto. rewrite Hs1. apply inb_gindex; auto. }
        pose proof (reduce_repr label_eqb label_eqb_eq _ _ _ _ _ _ _ split_NoDup R2 H3) as R3.
        destruct (Hfin t3 _ (reduced_looks red gl gr len x) R3) as [y' [Ey Ry]].
        assert (H3' : reduce_ t2 (seq (length (kept gl gr)) (length (missing gl gr))) = Ok t3) by (apply Hred; auto).
        rewrite H3'. cbn [bind]. rewrite Ey. f_equal. eapply (grepr_unique label_eqb label_eqb_eq); eauto. apply call_gr_NoDup.
    Qed.
  End CoreSpec.
End Meaning.

(** ** lengths that fit are unique *)
Lemma fits_known names sizes gl gr shape len len' l :
  names = map fst sizes -> fits len gl gr shape sizes -> fits len' gl gr shape sizes ->
  In l (concat gl ++ concat gr) -> unknown names l = false -> len l = len' l.
Proof.
  intros -> [_ [F2 F3]] [_ [G2 G3]] Hl Hu. destruct l as [s|i|k n]; simpl in Hu; try discriminate.
  - apply negb_false_iff, str_mem_In in Hu. apply in_map_iff in Hu as [[s' z] [E Hz]]. simpl in E. subst s'.
    specialize (F3 s z Hz). specialize (G3 s z Hz). lia.
  - specialize (F2 k n Hl). specialize (G2 k n Hl). lia.
Qed.

Lemma fits_call_ok U w pattern sizes shape L R e len len' :
  call_ok U w pattern sizes shape L R e len -> fits len' (left_groups e L) (right_groups e L R) shape sizes ->
  call_ok U w pattern sizes shape L R e len'.
Proof.
  intros [Hr Hi Hd Hfl Hk Hnm H1 Hf Hdiv Hpl] Hf'. constructor; auto.
  intros g Hg Hu. rewrite (map_ext_in len' len); [auto|]. intros a Ha. apply filter_In in Ha as [Ha Hna].
  apply negb_true_iff in Hna. eapply (fits_known _ sizes); eauto. apply in_or_app; left. apply in_concat; eauto.
Qed.

Lemma fits_unique U w pattern sizes shape L R e len len' : unicode_ok U ->
  call_ok U w pattern sizes shape L R e len -> fits len' (left_groups e L) (right_groups e L R) shape sizes ->
  same_on (concat (left_groups e L) ++ concat (right_groups e L R)) len len'.
Proof.
  intros HU Hok Hf. pose proof (fits_call_ok _ _ _ _ _ _ _ _ _ _ Hok Hf) as Hok'.
  set (x := mkT shape (repeat tt (prodn shape))).
  destruct (call_unique U HU (fun t _ => Ok t) (fun t _ _ => Ok t) pattern sizes x w w L R e len L R e len' Hok Hok') as [_ [_ [_ H]]]. exact H.
Qed.

(** ** the functions of einops.einops *)
Section Api.
  Context {A : Type} (U : unicode) (HU : unicode_ok U) (o : orders) (Ho : orders_ok o).
  Context (lib : bool) (red : pystr -> list A -> result A) (isf : tensor A -> bool) (num : nat -> A).
  Notation be f := (backend_of lib red isf num f).

  Lemma api_core f x pattern rd sizes :
    api_reduce U o int_ops (be f) (One x) pattern rd sizes =
    let* _ := check_kwargs reserved_kwargs sizes in
    core_call U o lib (fun t axes => reduce_axes (be f) t rd axes) (b_add_axes (be f)) pattern (op_of rd) sizes x.
  Proof.
    unfold api_reduce. cbn [stack_input bind]. apply bind_ext. intros _ _.
    unfold core_call, apply_recipe. destruct f; reflexivity.
  Qed.

  Lemma be_adds f : adds_axes (b_add_axes (be f)).
  Proof. destruct f; first [exact tile_adds_axes|exact expand_adds_axes]. Qed.

  Lemma be_rejects f : rejects (fun z => if expands f then (z < -1)%Z else (z < 0)%Z) (b_add_axes (be f)).
  Proof. destruct f; first [exact tile_rejects|exact expand_rejects]. Qed.

  Lemma check_kwargs_iff {D} (sizes : list (pystr * D)) :
    check_kwargs reserved_kwargs sizes = Ok tt <-> forall s, In s (map fst sizes) -> ~ In s reserved_kwargs.
  Proof.
    unfold check_kwargs, raise_if. destruct (existsb _ sizes) eqn:E.
    - split; [discriminate|]. intros H. exfalso. apply existsb_exists in E as [[k d] [Hin E]]. apply str_mem_In in E.
      apply (H k); auto. apply (in_map fst) in Hin. exact Hin.
    - split; auto. intros _ s Hs Hr. apply in_map_iff in Hs as [[k d] [<- Hin]].
      assert (X : existsb (fun '(k, _) => str_mem k reserved_kwargs) sizes = true); [|congruence].
      apply existsb_exists. exists (k, d); split; auto. apply str_mem_In; auto.
  Qed.

  Lemma reduce_axes_by f s : str_mem s reductions = true -> (one_by_one f s = true -> splits (red s)) ->
    (s = lit "mean" -> forall t, isf t = true) ->
    reduces_by (has_reduction f s = true) (red s) (fun t axes => reduce_axes (be f) t (RStr s) axes).
  Proof.
    intros Hs Hsp Hmean t t' k m Hw Hl Hm. unfold reduce_axes. rewrite Hs. cbn [negb raise_if bind].
    assert (E : str_eqb s (lit "mean") && negb (b_is_float (be f) t) = false).
    { destruct (str_eqb s (lit "mean")) eqn:E; auto. apply str_eqb_eq in E. simpl.
      replace (b_is_float (be f) t) with (isf t) by (destruct f; reflexivity). rewrite Hmean; auto. }
    rewrite E. cbn [raise_if bind]. apply framework_reduce; auto.
  Qed.

  (** expanding frameworks must not be given the size -1 for a new axis *)
  Definition sizes_ok (f : framework) (pattern : pystr) (op : operation) (sizes : list (pystr * Z)) : Prop :=
    expands f = true -> op_role op = Some Repeating ->
    forall L R s, reads U pattern L R -> In (s, (-1)%Z) sizes -> In s (keys L).

  Lemma api_sound f x pattern rd sizes y : NoDup (map fst sizes) -> wf x -> sizes_ok f pattern (op_of rd) sizes ->
    api_reduce U o int_ops (be f) (One x) pattern rd sizes = Ok y ->
    (forall s, In s (map fst sizes) -> ~ In s reserved_kwargs) /\
    exists w L R e len, op_role (op_of rd) = Some w /\ call_ok U w pattern sizes (shp x) L R e len.
  Proof.
    intros Hns Hwf Hsz H. rewrite api_core in H. apply bind_Ok in H as [[] [H1 H]].
    split; [apply check_kwargs_iff; auto|].
    eapply core_sound; eauto using be_adds; [apply be_rejects|].
    intros L R s z Hr Hz Hn Hneg Hrole. simpl. destruct (expands f) eqn:E; auto.
    destruct (Z.eq_dec z (-1)) as [->|Hne]; [|lia]. exfalso. apply Hn. eapply Hsz; eauto.
  Qed.

  (** what is required of the reduction *)
  Definition red_ok (f : framework) (s : pystr) : Prop :=
    (one_by_one f s = true -> splits (red s)) /\ (s = lit "mean" -> forall t, isf t = true).

  Section Good.
    Context (f : framework) (x : tensor A) (pattern : pystr) (sizes : list (pystr * Z)).
    Context (Hns : NoDup (map fst sizes)) (Hwf : wf x).
    Context (Hkw : forall s, In s (map fst sizes) -> ~ In s reserved_kwargs).

    Lemma api_good rd : api_reduce U o int_ops (be f) (One x) pattern rd sizes =
      core_call U o lib (fun t axes => reduce_axes (be f) t rd axes) (b_add_axes (be f)) pattern (op_of rd) sizes x.
    Proof. rewrite api_core. apply check_kwargs_iff in Hkw. rewrite Hkw. reflexivity. Qed.

    Lemma api_moves rd w L R e len y : op_role (op_of rd) = Some w -> call_ok U w pattern sizes (shp x) L R e len ->
      missing (left_groups e L) (right_groups e L R) = [] ->
      (api_reduce U o int_ops (be f) (One x) pattern rd sizes = Ok y <->
       moves (left_groups e L) (right_groups e L R) len x y).
    Proof. intros Hw Hok Hm. rewrite api_good. eapply core_moves_iff; eauto using be_adds. Qed.

    Lemma api_moves_ex rd w L R e len : op_role (op_of rd) = Some w -> call_ok U w pattern sizes (shp x) L R e len ->
      missing (left_groups e L) (right_groups e L R) = [] ->
      exists y, api_reduce U o int_ops (be f) (One x) pattern rd sizes = Ok y /\
                moves (left_groups e L) (right_groups e L R) len x y.
    Proof. intros Hw Hok Hm. rewrite api_good. eapply core_moves; eauto using be_adds. Qed.

    Lemma api_reduces s L R e len y : str_mem s reductions = true -> red_ok f s ->
      call_ok U Reducing pattern sizes (shp x) L R e len ->
      missing (left_groups e L) (right_groups e L R) <> [] ->
      (api_reduce U o int_ops (be f) (One x) pattern (RStr s) sizes = Ok y <->
       has_reduction f s = true /\ reduces (red s) (left_groups e L) (right_groups e L R) len x y).
    Proof.
      intros Hs [H1 H2] Hok Hm. rewrite api_good.
      assert (Hw : op_role (op_of (@RStr (tensor A) s)) = Some Reducing).
      { apply str_mem_In in Hs. repeat (destruct Hs as [<-|Hs]; [reflexivity|]). destruct Hs. }
      eapply core_reduces_iff; eauto using be_adds. apply reduce_axes_by; auto.
    Qed.
  End Good.
End Api.
