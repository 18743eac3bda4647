(** * Frameworks agree; which backend functions are used *)
From Verif Require Import Py Tensor ListFacts TensorFacts SpecSem SpecGrammar SpecPattern SpecOps Parsing Compile Recipe Ops Backends Api StepFacts ParseFacts ParseFacts2 ParseFacts3 RecipeFacts InferFacts ApplyFacts FrontFacts FrontFacts2 FrontFacts3 MainFacts MainFacts2 ReduceFacts MainFacts3 CallFacts RelabelFacts Laws ApiFacts ApiFacts2 ApiFacts3 ApiFacts4.

(** ** adding axes *)
Section Target.
  Definition is_old (target : list (option nat)) (i : nat) : bool :=
    match nth i target None with None => i <? length target | Some _ => false end.

  Lemma filled_length target s : length (filled target s) = length target.
  Proof.
    revert s; induction target as [|[n|] t IH]; intros s; simpl; auto.
    destruct s; simpl; auto.
  Qed.

  Lemma filter_seq_shift (p : nat -> bool) k n : filter p (seq (S k) n) = map S (filter (fun i => p (S i)) (seq k n)).
  Proof.
    revert k; induction n as [|n IH]; intros k; simpl; auto. rewrite IH. destruct (p (S k)); simpl; auto.
  Qed.

  Lemma enumerate_from_In {B} (l : list B) k i b : In (i, b) (enumerate_from k l) -> In b l.
  Proof.
    revert k; induction l as [|c l IH]; intros k H; [destruct H|]. destruct H as [H|H]; [left; congruence|right; eauto].
  Qed.

  Lemma is_old_S a t i : is_old (a :: t) (S i) = is_old t i.
  Proof. unfold is_old. simpl. destruct (nth i t None); auto. Qed.

  Lemma olds_filter target l : length l = length target ->
    map (fun i => nth i l 0) (filter (is_old target) (seq 0 (length target))) = olds target l.
  Proof.
    revert l; induction target as [|a t IH]; intros l Hl; [destruct l; auto|].
    destruct l as [|x l]; [discriminate|]. cbn [length seq]. cbn [filter].
    assert (E : map (fun i => nth i (x :: l) 0) (filter (is_old (a :: t)) (seq 1 (length t))) = olds t l).
    { rewrite filter_seq_shift, map_map. cbn [nth]. rewrite <- IH by (simpl in Hl; lia). f_equal;
      try (apply filter_ext; intros i; apply is_old_S). }
    destruct a as [n|].
    - assert (E0 : is_old (Some n :: t) 0 = false) by reflexivity. rewrite E0. exact E.
    - assert (E0 : is_old (None :: t) 0 = true) by reflexivity. rewrite E0, map_cons, E. reflexivity.
  Qed.

  Lemma olds_filled target s : length s = count_old target -> olds target (filled target s) = s.
  Proof.
    revert s; induction target as [|[n|] t IH]; intros s Hs; simpl in *.
    - destruct s; auto; discriminate.
    - apply IH; auto.
    - destruct s as [|d s]; [discriminate|]. simpl. f_equal. apply IH. unfold count_old in *. simpl in Hs. lia.
  Qed.

  Lemma added_from_target target s k :
    added_from (fun i => is_old target (i - k)) (fun i => nth (i - k) (filled target s) 0) k (seq k (length target)) =
    flat_map (fun '(i, a) => match a with Some n => [(i, Z.of_nat n)] | None => [] end) (enumerate_from k target).
  Proof.
    unfold added_from.
    revert s k. induction target as [|a t IH]; intros s k; [reflexivity|].
    cbn [length seq enumerate_from flat_map filter].
    assert (E : forall s', (forall i, nth (S i) (filled (a :: t) s) 0 = nth i (filled t s') 0) ->
      map (fun '(i, b) => (i, Z.of_nat (nth (b - k) (filled (a :: t) s) 0)))
        (filter (fun '(_, b) => negb (is_old (a :: t) (b - k))) (enumerate_from (S k) (seq (S k) (length t)))) =
      flat_map (fun '(i, a0) => match a0 with Some n => [(i, Z.of_nat n)] | None => [] end) (enumerate_from (S k) t)).
    { intros s' Hs'. rewrite <- (IH s' (S k)).
      assert (Hin : forall j b, In (j, b) (enumerate_from (S k) (seq (S k) (length t))) -> S k <= b).
      { intros j b Hb. assert (Hq : In b (seq (S k) (length t))).
        { eapply enumerate_from_In; eauto. }
        apply in_seq in Hq. lia. }
      rewrite (filter_ext_in _ (fun '(_, b) => negb (is_old t (b - S k)))).
      2:{ intros [j b] Hb. apply Hin in Hb. replace (b - k) with (S (b - S k)) by lia. rewrite is_old_S. auto. }
      apply map_ext_in. intros [j b] Hb. apply filter_In in Hb as [Hb _]. apply Hin in Hb.
      replace (b - k) with (S (b - S k)) by lia. rewrite Hs'. auto. }
    rewrite Nat.sub_diag. destruct a as [n|].
    - assert (E0 : is_old (Some n :: t) 0 = false) by reflexivity. rewrite E0. cbn [negb]. rewrite map_cons.
      rewrite (E s) by reflexivity. rewrite Nat.sub_diag. reflexivity.
    - assert (E0 : is_old (None :: t) 0 = true) by reflexivity. rewrite E0. cbn [negb].
      destruct s as [|d s].
      + rewrite (E []) by reflexivity. reflexivity.
      + rewrite (E s) by reflexivity. reflexivity.
  Qed.
End Target.

Lemma map_nth_id (l : list nat) : map (fun i => nth i l 0) (seq 0 (length l)) = l.
Proof.
  apply nth_ext with (d := 0) (d' := 0); rewrite map_length, seq_length; auto.
  intros n Hn. rewrite (nth_indep _ 0 (nth 0 l 0)) by (rewrite map_length, seq_length; auto).
  rewrite (map_nth (fun i => nth i l 0)), seq_nth by auto. reflexivity.
Qed.

Lemma add_axes_agree {A} (x : tensor A) target : wf x -> length (shp x) = count_old target ->
  exists y, tile_add_axes x (length target) (inserted target) = Ok y /\
            expand_add_axes x (length target) (inserted target) = Ok y /\
            aa_add x (length target) (inserted target) = Ok y /\
            wf y /\ shp y = filled target (shp x) /\
            forall idx, inb (shp y) idx = true -> get y idx = get x (olds target idx).
Proof.
  intros Hw Hl. set (old := is_old target). set (len := fun i => nth i (filled target (shp x)) 0).
  set (ns := seq 0 (length target)).
  assert (Hnd : NoDup ns) by apply seq_NoDup.
  assert (Hr : repr x (filter old ns) len (fun ix => getr x (map ix (filter old ns)))).
  { split; auto. split; auto. unfold len, old, ns. rewrite olds_filter by apply filled_length.
    rewrite olds_filled; auto. }
  assert (Ea : added_from old len 0 ns = inserted target).
  { unfold inserted, enumerate. rewrite <- (added_from_target target (shp x) 0).
    unfold added_from. rewrite (filter_ext _ (fun '(_, b) => negb (is_old target (b - 0)))).
    - apply map_ext. intros [i b]. rewrite Nat.sub_0_r. reflexivity.
    - intros [i b]. rewrite Nat.sub_0_r. reflexivity. }
  assert (En : length ns = length target) by (unfold ns; apply seq_length).
  destruct (tile_add_repr Nat.eqb Nat.eqb_eq old len x ns _ Hnd Hr) as [y [E1 R1]].
  destruct (expand_add_repr Nat.eqb Nat.eqb_eq old len x ns _ Hnd Hr) as [y2 [E2 R2]].
  destruct (aa_add_repr Nat.eqb Nat.eqb_eq old len x ns _ Hnd Hr) as [y3 [E3 R3]].
  assert (y2 = y) as -> by (exact (repr_unique Nat.eqb Nat.eqb_eq y2 y ns len _ Hnd R2 R1)).
  assert (y3 = y) as -> by (exact (repr_unique Nat.eqb Nat.eqb_eq y3 y ns len _ Hnd R3 R1)).
  rewrite Ea, En in *. exists y. repeat (split; [assumption|]).
  destruct R1 as [W [S G]]. split; auto.
  assert (Es : shp y = filled target (shp x)).
  { rewrite S. unfold len, ns. rewrite <- (filled_length target (shp x)). apply map_nth_id. }
  split; auto. intros idx Hi. pose proof (inb_length _ _ Hi) as Hlen. rewrite Es, filled_length in Hlen.
  specialize (G (fun i => nth i idx 0)).
  assert (Em : map (fun i => nth i idx 0) ns = idx) by (unfold ns; rewrite <- Hlen; apply map_nth_id).
  assert (Ew : within len (fun i => nth i idx 0) ns).
  { apply inb_within. rewrite Em, <- S. auto. }
  specialize (G Ew). rewrite Em in G. unfold old, ns in G. rewrite olds_filter in G by auto.
  unfold getr in G. apply of_option_inj in G. exact G.
Qed.

(** ** the functions agree between frameworks *)
Section Frameworks.
  Context {A : Type} (r : runtime A) (Hok : runtime_ok r).
  Implicit Types (x y : tensor A) (pattern : pystr) (sizes : list (pystr * Z)).
  Let HU : unicode_ok (rt_unicode r) := ro_unicode r Hok.
  Let Ho : orders_ok (rt_orders r) := ro_orders r Hok.

  Lemma with_ok f : runtime_ok (with_framework r f).
  Proof. split; [exact HU|exact Ho]. Qed.

  Lemma nonneg_sizes_ok f pattern sizes : nonneg sizes -> repeat_sizes_ok (with_framework r f) pattern sizes.
  Proof. intros Hn _ L R s _ Hi. apply Hn in Hi. lia. Qed.

  Lemma repeat_agrees f f' x pattern sizes y : NoDup (map fst sizes) -> wf x -> nonneg sizes ->
    repeat_ (with_framework r f) (One x) pattern sizes = Ok y ->
    repeat_ (with_framework r f') (One x) pattern sizes = Ok y.
  Proof.
    intros Hnd Hw Hn H.
    assert (Ha : no_reserved sizes /\ exists L R e len, call_ok (rt_unicode r) Repeating pattern sizes (shp x) L R e len).
    { apply (repeat_accepts (with_framework r f) (with_ok f) x pattern sizes Hnd Hw (nonneg_sizes_ok f pattern sizes Hn)). eauto. }
    destruct Ha as [Hres [L [R [e [len Hc]]]]].
    apply (repeat_iff (with_framework r f') (with_ok f') x pattern sizes L R e len y Hnd Hw Hres Hc).
    apply (repeat_iff (with_framework r f) (with_ok f) x pattern sizes L R e len y Hnd Hw Hres Hc). exact H.
  Qed.

  Lemma is_float_of lib (red : pystr -> list A -> result A) isf num f t : b_is_float (backend_of lib red isf num f) t = isf t.
  Proof. destruct f; reflexivity. Qed.

  Lemma reduce_agrees f f' x pattern s sizes y : NoDup (map fst sizes) -> wf x -> str_mem s reductions = true ->
    (one_by_one f s = true \/ one_by_one f' s = true -> splits (rt_red r s)) -> has_reduction f' s = true ->
    reduce (with_framework r f) (One x) pattern (RStr s) sizes = Ok y ->
    reduce (with_framework r f') (One x) pattern (RStr s) sizes = Ok y.
  Proof.
    intros Hnd Hw Hs Hsp Hh H.
    destruct (reduce_sound (with_framework r f) (with_ok f) x pattern s sizes y Hnd Hw Hs H) as [Hres [L [R [e [len Hc]]]]].
    unfold reduce, rt_backend in *.
    cbn [rt_unicode rt_orders rt_framework rt_lib rt_red rt_isf rt_num with_framework] in *.
    rewrite api_good in * by (unfold no_reserved in Hres; auto).
    pose proof (role_of_red (A:=A) s Hs) as Hrole.
    match type of H with core_call _ _ _ ?rd ?ad _ _ _ _ = _ =>
      destruct (core_eq (rt_unicode r) HU (rt_orders r) Ho (rt_lib r) rd ad pattern (op_of (RStr s)) sizes x Hnd Reducing L R e len
        Hrole Hw ltac:(apply be_adds) Hc) as [t2 [fin [R1 [E1 [_ F1]]]]] end.
    match goal with |- core_call _ _ _ ?rd ?ad _ _ _ _ = _ =>
      destruct (core_eq (rt_unicode r) HU (rt_orders r) Ho (rt_lib r) rd ad pattern (op_of (RStr s)) sizes x Hnd Reducing L R e len
        Hrole Hw ltac:(apply be_adds) Hc) as [t2' [fin' [R2 [E2 [_ F2]]]]] end.
    rewrite E1 in H. rewrite E2. clear E1 E2.
    pose proof (split_NoDup (rt_unicode r) (fun t _ => Ok t) pattern sizes x) as Hsn.
    assert (Hnd2 : NoDup (kept (left_groups e L) (right_groups e L R) ++ missing (left_groups e L) (right_groups e L R))).
    { eapply Hsn; eauto. }
    assert (t2' = t2) as -> by (exact (repr_unique label_eqb label_eqb_eq t2' t2 _ len _ Hnd2 R2 R1)).
    apply bind_Ok in H as [t3 [H1 H2]].
    assert (E3 : match missing (left_groups e L) (right_groups e L R) with
                 | [] => Ok t2
                 | _ => reduce_axes (backend_of (rt_lib r) (rt_red r) (rt_isf r) (rt_num r) f') t2 (RStr s)
                          (seq (length (kept (left_groups e L) (right_groups e L R))) (length (missing (left_groups e L) (right_groups e L R))))
                 end = Ok t3).
    { destruct (missing (left_groups e L) (right_groups e L R)) as [|a m] eqn:Em; [exact H1|].
      cbn [reduce_axes] in *. rewrite !is_float_of in *.
      apply bind_Ok in H1 as [u1 [-> H1]]. apply bind_Ok in H1 as [u2 [-> H1]]. cbn [bind].
      destruct R1 as [W1 [S1 _]].
      assert (Hlen : length (shp t2) = length (kept (left_groups e L) (right_groups e L R)) + length (a :: m)).
      { rewrite S1, map_length, app_length. reflexivity. }
      apply framework_reduce in H1 as [_ H1]; auto; [|discriminate].
      apply framework_reduce; auto. discriminate. }
    rewrite E3. cbn [bind]. rewrite F2 by discriminate. rewrite F1 in H2 by discriminate. exact H2.
  Qed.
End Frameworks.

(** ** which backend functions are used: arbitrary tensors, dimensions and backends *)
Section Generic.
  Context (U : unicode) (HU : unicode_ok U) (o : orders) (Ho : orders_ok o).

  Lemma prepare_closed pattern op names n rc : prepare_recipe U o pattern op names n = Ok rc ->
    exists L R e w, reads U pattern L R /\ op_role op = Some w /\ ident_ok w L R names /\
      (has_dots R = true -> has_dots L = true) /\ no_grouped L /\ rank_fits L n e /\
      rc = closed_recipe o names (map (map axis_of) (left_groups e L)) (map (map axis_of) (right_groups e L R)) (rids_of L R e).
  Proof.
    rewrite prepare_split. intros H. apply bind_Ok in H as [v [H1 H2]].
    apply (frontend_iff U pattern op names n v HU) in H1 as [L [R [e [w [Hr [Hw [Hi [Hd [Hg [Hk ->]]]]]]]]]].
    exists L, R, e, w. repeat (split; [assumption|]). rewrite front_value_eq in H2.
    pose proof (front_weak U HU pattern L R e Hr Hd) as HW.
    rewrite (backend_closed U o names _ _ _ _ Ho HW) in H2.
    destruct (names_ok _ _ _ _); [|discriminate]. destruct (groups_ok _ _); [|discriminate]. congruence.
  Qed.

  Lemma no_added pattern op names n rc : prepare_recipe U o pattern op names n = Ok rc ->
    op_role op <> Some Repeating -> r_added rc = [].
  Proof.
    intros H Hop. apply prepare_closed in H as [L [R [e [w [Hr [Hw [Hi [Hd [Hg [Hk ->]]]]]]]]]].
    cbn [r_added closed_recipe].
    assert (Hinc : incl (concat (map (map axis_of) (right_groups e L R))) (concat (map (map axis_of) (left_groups e L)))).
    { eapply no_new; eauto. congruence. }
    unfold closed_recipe. cbn [r_added]. rewrite (added_nil L R e) by assumption. reflexivity.
  Qed.

  Context {T D : Type} (O : dim_ops D).
  Implicit Types (B : backend T D) (x : input T) (pattern : pystr) (sizes : list (pystr * D)).

  Lemma api_agree B B' x pattern rd sizes :
    (forall t, b_shape B t = b_shape B' t) -> (forall t s, b_reshape B t s = b_reshape B' t s) ->
    (forall t p, b_transpose B t p = b_transpose B' t p) ->
    (forall ts, x = Many ts -> b_stack B ts = b_stack B' ts) ->
    (forall t axes, reduce_axes B t rd axes = reduce_axes B' t rd axes) ->
    (op_role (op_of rd) = Some Repeating -> forall t n l, b_add_axes B t n l = b_add_axes B' t n l) ->
    api_reduce U o O B x pattern rd sizes = api_reduce U o O B' x pattern rd sizes.
  Proof.
    intros Hsh Hre Htr Hst Hrd Had. unfold api_reduce. apply bind_ext. intros u _.
    assert (Es : stack_input B x = stack_input B' x).
    { destruct x as [t|ts]; cbn [stack_input]; auto. destruct ts; auto. }
    rewrite Es. apply bind_ext. intros t _. rewrite Hsh. apply bind_ext. intros rc Hrc.
    unfold apply_recipe. rewrite Hsh. apply bind_ext. intros k Hk. unfold apply_cooked.
    assert (E1 : match k_init k with Some s => b_reshape B t s | None => Ok t end =
                 match k_init k with Some s => b_reshape B' t s | None => Ok t end) by (destruct (k_init k); auto).
    rewrite E1. apply bind_ext. intros t1 _.
    assert (E2 : match k_reorder k with Some s => b_transpose B t1 s | None => Ok t1 end =
                 match k_reorder k with Some s => b_transpose B' t1 s | None => Ok t1 end) by (destruct (k_reorder k); auto).
    rewrite E2. apply bind_ext. intros t2 _.
    assert (E3 : match k_reduced k with [] => Ok t2 | _ => reduce_axes B t2 rd (k_reduced k) end =
                 match k_reduced k with [] => Ok t2 | _ => reduce_axes B' t2 rd (k_reduced k) end) by (destruct (k_reduced k); auto).
    rewrite E3. apply bind_ext. intros t3 _.
    assert (E4 : match k_added k with [] => Ok t3 | _ => b_add_axes B t3 (k_naxes k) (k_added k) end =
                 match k_added k with [] => Ok t3 | _ => b_add_axes B' t3 (k_naxes k) (k_added k) end).
    { assert (Hc : op_role (op_of rd) = Some Repeating \/ op_role (op_of rd) <> Some Repeating).
      { destruct (op_role (op_of rd)) as [[]|]; auto; right; discriminate. }
      destruct Hc as [Hc|Hc]; [rewrite Had by auto; reflexivity|].
      apply (no_added _ _ _ _ _ Hrc) in Hc.
      assert (Hka : k_added k = []).
      { unfold reconstruct in Hk. apply bind_Ok in Hk as [al [_ Hk]]. apply bind_Ok in Hk as [[al' need] [_ Hk]].
        apply bind_Ok in Hk as [gs [_ Hk]]. apply bind_Ok in Hk as [ad [Ha Hk]]. rewrite Hc in Ha. cbn in Ha.
        injection Ha as <-. injection Hk as <-. reflexivity. }
      rewrite Hka. reflexivity. }
    rewrite E4. apply bind_ext. intros t4 _. destruct (k_final k); auto.
  Qed.

  Lemma no_reduce_axes B B' s t axes : str_mem s reductions = false ->
    reduce_axes B t (RStr s) axes = reduce_axes B' t (RStr s) axes.
  Proof. intros H. cbn [reduce_axes]. rewrite H. reflexivity. Qed.

  Lemma rearrange_uses B B' x pattern sizes :
    (forall t, b_shape B t = b_shape B' t) -> (forall t s, b_reshape B t s = b_reshape B' t s) ->
    (forall t p, b_transpose B t p = b_transpose B' t p) ->
    (forall ts, x = Many ts -> b_stack B ts = b_stack B' ts) ->
    api_rearrange U o O B x pattern sizes = api_rearrange U o O B' x pattern sizes.
  Proof.
    intros. unfold api_rearrange. apply api_agree; auto; discriminate.
  Qed.

  Lemma repeat_uses B B' x pattern sizes :
    (forall t, b_shape B t = b_shape B' t) -> (forall t s, b_reshape B t s = b_reshape B' t s) ->
    (forall t p, b_transpose B t p = b_transpose B' t p) ->
    (forall t n l, b_add_axes B t n l = b_add_axes B' t n l) ->
    (forall ts, x = Many ts -> b_stack B ts = b_stack B' ts) ->
    api_repeat U o O B x pattern sizes = api_repeat U o O B' x pattern sizes.
  Proof.
    intros. unfold api_repeat. apply api_agree; auto.
  Qed.

  Lemma reductions_role s : op_role (op_of (@RStr T s)) = Some Repeating -> s = s_repeat.
  Proof.
    cbn [op_of op_role]. destruct (str_eqb s s_rearrange); [discriminate|]. destruct (str_eqb s s_repeat) eqn:E.
    - intros _. unfold str_eqb in E. destruct (str_eq_dec s s_repeat); [auto|discriminate].
    - destruct (str_mem s reductions); discriminate.
  Qed.

  Lemma reduce_uses B B' x pattern s sizes : s <> s_repeat ->
    (forall t, b_shape B t = b_shape B' t) -> (forall t s, b_reshape B t s = b_reshape B' t s) ->
    (forall t p, b_transpose B t p = b_transpose B' t p) ->
    (forall t axes, b_reduce B t s axes = b_reduce B' t s axes) ->
    (s = lit "mean" -> forall t, b_is_float B t = b_is_float B' t) ->
    (forall ts, x = Many ts -> b_stack B ts = b_stack B' ts) ->
    api_reduce U o O B x pattern (RStr s) sizes = api_reduce U o O B' x pattern (RStr s) sizes.
  Proof.
    intros Hs Hsh Hre Htr Hrd Hf Hst. apply api_agree; auto.
    - intros t axes. cbn [reduce_axes]. apply bind_ext. intros u _.
      assert (E : str_eqb s (lit "mean") && negb (b_is_float B t) = str_eqb s (lit "mean") && negb (b_is_float B' t)).
      { unfold str_eqb. destruct (str_eq_dec s (lit "mean")); auto. rewrite Hf; auto. }
      rewrite E, Hrd. reflexivity.
    - intros H. exfalso. apply Hs. apply reductions_role in H. exact H.
  Qed.

  Lemma callable_uses B B' x pattern g sizes :
    (forall t, b_shape B t = b_shape B' t) -> (forall t s, b_reshape B t s = b_reshape B' t s) ->
    (forall t p, b_transpose B t p = b_transpose B' t p) ->
    (forall ts, x = Many ts -> b_stack B ts = b_stack B' ts) ->
    api_reduce U o O B x pattern (RCall g) sizes = api_reduce U o O B' x pattern (RCall g) sizes.
  Proof. intros. apply api_agree; auto. discriminate. Qed.

  (** *** identity patterns *)
  Lemma flat_groups dots e k ex : (forall i, In i ex -> (exists s, i = Atom (AName s)) \/ i = Atom ADots) ->
    Forall (fun g => length g = 1) (groups dots e k ex).
  Proof.
    revert k; induction ex as [|i ex IH]; intros k H; simpl; [constructor|].
    apply Forall_app. split; [|apply IH; intros; apply H; right; auto].
    destruct (H i (or_introl eq_refl)) as [[s ->]| ->]; simpl.
    - unfold stands_for_dots. destruct (dots && str_eqb s ell_name) eqn:E; unfold atom_labels, stands_for_dots; rewrite E.
      + apply Forall_forall. intros g Hg. apply in_map_iff in Hg as [a [<- _]]. reflexivity.
      + repeat constructor.
    - unfold atom_labels. simpl. apply Forall_forall. intros g Hg. apply in_map_iff in Hg as [a [<- _]]. reflexivity.
  Qed.

  Lemma list_upd_ok {C} (l : list C) i v : i < length l -> exists l', list_upd l i v = Ok l' /\ length l' = length l.
  Proof.
    revert i; induction l as [|a l IH]; intros i H; simpl in H; [lia|]. destruct i as [|i]; simpl; [eauto|].
    destruct (IH i ltac:(lia)) as [l' [-> E]]. simpl. exists (a :: l'). simpl. auto.
  Qed.

  Lemma list_get_ok {C} (l : list C) i : i < length l -> exists v, list_get l i = Ok v.
  Proof.
    intros H. unfold list_get. destruct (nth_error l i) eqn:E; [simpl; eauto|]. apply nth_error_None in E. lia.
  Qed.

  Lemma infer_units (shape : list D) us : forall k al, (forall u, In u us -> u < length al) -> k + length us <= length shape ->
    exists al', foldM (infer_step O shape) (enumerate_from k (map (fun u => ([], [u])) us)) (al, false) = Ok (al', false) /\
                length al' = length al.
  Proof.
    induction us as [|u us IH]; intros k al Hu Hk; simpl; [eauto|].
    simpl in Hk. destruct (list_get_ok shape k ltac:(lia)) as [v ->]. cbn [bind].
    destruct (list_upd_ok al u v (Hu u (or_introl eq_refl))) as [al1 [-> E1]]. cbn [bind].
    destruct (IH (S k) al1) as [al' [-> E2]]; [intros; rewrite E1; apply Hu; right; auto|lia|]. exists al'. split; auto. lia.
  Qed.

  Lemma rearrange_identity B t pattern L e : reads U pattern L L -> rank_fits L (length (b_shape B t)) e ->
    (forall i, In i L -> (exists s, i = Atom (AName s)) \/ i = Atom ADots) ->
    api_rearrange U o O B (One t) pattern [] = Ok t.
  Proof.
    intros Hr Hk Hf. unfold api_rearrange, api_reduce. cbn [check_kwargs existsb raise_if bind stack_input op_of map].
    set (n := length (b_shape B t)) in *.
    assert (Hnum : has_numbers L = false).
    { unfold has_numbers. destruct (existsb is_big (atoms L)) eqn:E; auto. apply existsb_exists in E as [a [Ha Hb]].
      unfold atoms in Ha. apply in_flat_map in Ha as [i [Hi Ha]]. destruct (Hf i Hi) as [[s ->]| ->]; simpl in Ha; destruct Ha as [<-|[]]; discriminate. }
    assert (Hng : no_grouped L).
    { intros _. destruct (existsb grouped_ell L) eqn:E; auto. apply existsb_exists in E as [i [Hi Hb]].
      destruct (Hf i Hi) as [[s ->]| ->]; discriminate. }
    assert (Hi : ident_ok Rearranging L L []) by (repeat split; auto; apply incl_refl).
    assert (Hfr : frontend U pattern (OpStr s_rearrange) [] n = Ok (front_value L L e)).
    { apply frontend_iff; auto. exists L, L, e, Rearranging. repeat split; auto; apply incl_refl. }
    rewrite prepare_split, Hfr. cbn [bind]. rewrite front_value_eq.
    pose proof (front_weak U HU pattern L L e Hr (fun H => H)) as HW.
    rewrite (backend_closed U o [] _ _ _ _ Ho HW).
    assert (Hrl : right_groups e L L = left_groups e L) by (apply right_as_left; auto).
    rewrite Hrl in *.
    set (lc := map (map axis_of) (left_groups e L)) in *.
    assert (H1 : Forall (fun g => length g = 1) lc).
    { unfold lc. apply Forall_forall. intros g Hg. apply in_map_iff in Hg as [g' [<- Hg]]. rewrite map_length.
      pose proof (flat_groups (has_dots L) e 0 L Hf) as F. rewrite Forall_forall in F. apply F; auto. }
    assert (H1k : forall g, In g lc -> filter (fun a => negb (is_known [] a)) g = g /\ filter (is_known []) g = []).
    { intros g Hg. assert (Hnk : forall a, In a g -> is_known [] a = false).
      { intros a Ha. unfold lc in Hg. apply in_map_iff in Hg as [g' [<- Hg]]. apply in_map_iff in Ha as [l [<- Hl]].
        rewrite (known_label U HU L L pattern Hr [] (fun s H => match H with end)). assert (Hu : unknown [] l = true); [|rewrite Hu; reflexivity].
        destruct l as [s|i|j m]; try reflexivity. exfalso.
        assert (Hin : In (LNum j m) (concat (left_groups e L))) by (apply in_concat; eauto).
        assert (Hax : In (AxAnon j m) (concat (map (map axis_of) (left_groups e L)))).
        { rewrite <- concat_map. apply in_map_iff. exists (LNum j m). auto. }
        apply (in_left L L e (fun H => H)) in Hax. simpl in Hax. apply no_numbers_big in Hax; auto. }
      split; [apply filter_all; intros a Ha; rewrite Hnk; auto|].
      clear - Hnk. induction g as [|a g IH]; simpl; auto. rewrite Hnk by (left; auto). apply IH. intros b Hb; apply Hnk; right; auto. }
    assert (Hgo : groups_ok [] lc = true).
    { unfold groups_ok. apply forallb_forall. intros g Hg. destruct (H1k g Hg) as [-> _]. rewrite Forall_forall in H1. rewrite H1; auto. }
    cbn [names_ok forallb]. rewrite Hgo. cbn [bind]. unfold apply_recipe.
    destruct HW as [Hndl Hndr Hndi Hlids Hrids Han].
    assert (Hkept : kept_axes_of lc lc = concat lc).
    { unfold kept_axes_of. apply filter_all. intros a Ha. apply axis_mem_In; auto. }
    assert (Hred : reduced_axes_of lc (rids_of L L e) = []).
    { unfold reduced_axes_of. assert (Hx : forall a, In a (concat lc) -> axis_mem a (rids_of L L e) = true).
      { intros a Ha. apply axis_mem_In. apply (in_rids_same L L e (fun H => H)); auto. rewrite Hrl. exact Ha. }
      clear - Hx. induction (concat lc) as [|a l IH]; simpl; auto. rewrite Hx by (left; auto). simpl. apply IH. intros b Hb; apply Hx; right; auto. }
    set (all := all_axes o lc (rids_of L L e)).
    pose proof (fun a => all_axes_In o lc (rids_of L L e) a Ho) as HinA. fold all in HinA.
    assert (Hone : forall g, In g lc -> exists a, g = [a]).
    { intros g Hg. rewrite Forall_forall in H1. specialize (H1 g Hg). destruct g as [|a [|? ?]]; try discriminate. eauto. }
    assert (Hpos : forall a, In a (concat lc) -> pos_in all a < length all).
    { intros a Ha. assert (Hia : In a all) by (apply HinA; auto). apply pos_in_nth in Hia. apply nth_error_Some. congruence. }
    assert (Hrc : exists k, reconstruct O (closed_recipe o [] lc lc (rids_of L L e)) (b_shape B t) [] = Ok k /\
      k_init k = None /\ k_reorder k = None /\ k_reduced k = [] /\ k_added k = [] /\ k_final k = None).
    { unfold reconstruct, closed_recipe. cbn [r_elementary r_name2elem r_input r_perm r_first_reduced r_added r_output map]. fold all.
      cbn [foldM bind].
      assert (Ein : map (fun g => (map (pos_in all) (o 1 (filter (is_known []) g)), map (pos_in all) (filter (fun a => negb (is_known [] a)) g))) lc
        = map (fun u => ([], [u])) (map (pos_in all) (concat lc))).
      { clearbody all. clear - H1k Hone Ho. induction lc as [|g lc IH]; simpl; auto. destruct (Hone g (or_introl eq_refl)) as [a ->].
        destruct (H1k [a] (or_introl eq_refl)) as [-> ->]. simpl. rewrite IH.
        - specialize (Ho 1 []). apply Permutation_sym, Permutation_nil in Ho. rewrite Ho. reflexivity.
        - intros; apply H1k; right; auto.
        - intros; apply Hone; right; auto. }
      rewrite Ein.
      destruct (infer_units (b_shape B t) (map (pos_in all) (concat lc)) 0 (map (d_of_Z O) (map (mval []) all))) as [al [El Hal]].
      { intros u Hu. apply in_map_iff in Hu as [a [<- Ha]]. rewrite !map_length. auto. }
      { rewrite map_length. assert (Hlen : length (concat lc) = length lc).
        { clear - Hone. induction lc as [|g lc IH]; simpl; auto. destruct (Hone g (or_introl eq_refl)) as [a ->]. simpl. f_equal. apply IH.
          intros; apply Hone; right; auto. }
        rewrite Hlen. unfold lc. rewrite map_length. simpl. fold n. erewrite groups_count; eauto. }
      unfold enumerate. rewrite El. cbn [bind].
      rewrite !map_length in Hal.
      assert (Eg : exists gs, mapM (mapM (list_get al)) (map (map (pos_in all)) lc) = Ok gs /\ existsb (fun g => negb (length g =? 1)) gs = false).
      { clearbody all. clear - Hone Hpos Hal. induction lc as [|g lc IH]; simpl; [eauto|].
        destruct (Hone g (or_introl eq_refl)) as [a ->]. simpl.
        assert (Hp : pos_in all a < length al) by (rewrite Hal; apply Hpos; simpl; auto).
        destruct (list_get_ok al (pos_in all a) Hp) as [v ->]. cbn [bind].
        destruct IH as [gs [-> E]]; [intros; apply Hone; right; auto|intros; apply Hpos; simpl; auto|]. cbn [bind]. exists ([v] :: gs). auto. }
      destruct Eg as [gs [-> Eg]]. cbn [bind].
      assert (Ead : added_of lc lc = []).
      { unfold lc at 2. rewrite <- Hrl. unfold lc. apply (added_nil L L e). rewrite Hrl. apply incl_refl. }
      rewrite Ead. cbn [map mapM bind]. eexists. split; [reflexivity|]. cbn [k_init k_reorder k_reduced k_added k_final].
      unfold order_after_of. rewrite Hkept, Hred, app_nil_r. rewrite map_pos_seq by auto. rewrite seq_length, Nat.sub_diag.
      rewrite Eg. destruct (list_eq_dec Nat.eq_dec _ _) as [_|Hne]; [|exfalso; apply Hne; reflexivity]. auto. }
    destruct Hrc as [k [-> [E1 [E2 [E3 [E4 E5]]]]]]. cbn [bind]. unfold apply_cooked. rewrite E1, E2, E3, E4, E5. reflexivity.
  Qed.
End Generic.
