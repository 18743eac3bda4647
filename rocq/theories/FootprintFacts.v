(** * Facts about the sizes of the tensors that are made *)
From Verif Require Import Py ListFacts Tensor TensorFacts Parsing Recipe Ops Backends Api Packing MainFacts StrideFacts2 Footprint SpecFootprint.

Section Erase.
  Context {A : Type} (r : runtime A).
  Implicit Types (x y : logged A).
  Lemma erase_note log (m : result (tensor A)) : erase (note log m) = m.
  Proof. destruct m; reflexivity. Qed.
  Lemma erase_bind (m : result (logged A)) (m' : result (tensor A)) (f : logged A -> result (logged A)) (f' : tensor A -> result (tensor A)) : erase m = m' -> (forall x, erase (f x) = f' (fst x)) -> erase (bind m f) = bind m' f'.
  Proof. intros <- H. destruct m as [x|e]; cbn; [apply H|reflexivity]. Qed.
  Lemma erase_fold {X} (f : logged A -> X -> result (logged A)) (f' : tensor A -> X -> result (tensor A)) l : (forall x i, erase (f x i) = f' (fst x) i) -> forall x, erase (foldM f l x) = foldM f' l (fst x).
  Proof. intros H. induction l as [|i l IH]; intros x; cbn [foldM]; [reflexivity|]. apply erase_bind; [apply H|exact IH]. Qed.
  Lemma erase_joint x op axes : erase (logged_joint r x op axes) = joint_reduce (rt_red r) (fst x) op axes.
  Proof. apply erase_note. Qed.
  Lemma erase_sequential x op axes : erase (logged_sequential r x op axes) = sequential_reduce (rt_red r) (fst x) op axes.
  Proof. apply erase_fold. intros y i. apply erase_note. Qed.
  Lemma erase_torch x op axes : erase (logged_torch r x op axes) = torch_reduce (rt_red r) (fst x) op axes.
  Proof. unfold logged_torch, torch_reduce. destruct (str_mem op _); [apply erase_joint|]. destruct (str_mem op _); [apply erase_sequential|reflexivity]. Qed.
  Lemma erase_torch_jit x op axes : erase (logged_torch_jit r x op axes) = torch_jit_reduce (rt_red r) (fst x) op axes.
  Proof. unfold logged_torch_jit, torch_jit_reduce. destruct (str_mem op _); [apply erase_joint|]. destruct (str_eqb op _); [apply erase_sequential|reflexivity]. Qed.
  Lemma erase_oneflow x op axes : erase (logged_oneflow r x op axes) = oneflow_reduce (rt_red r) (fst x) op axes.
  Proof. apply erase_fold. intros y i. destruct (str_mem op reductions); [apply erase_note|reflexivity]. Qed.
  Lemma erase_paddle x op axes : erase (logged_paddle r x op axes) = paddle_reduce (rt_red r) (fst x) op axes.
  Proof.
    unfold logged_paddle, paddle_reduce. destruct (length axes =? length (shp (fst x))).
    - apply erase_bind; [apply erase_note|]. intros y. apply erase_note.
    - destruct (paddle_own_reduce (rt_red r) (fst x) op axes); reflexivity.
  Qed.
  Lemma erase_add_axes keep spread x n pos2len :
    erase (logged_add_axes keep spread x n pos2len) =
    (let* (t, repeats) := foldM (fun '(t, repeats) '(p, l) => let* t := t_expand_dims t p in let* repeats := list_upd repeats p l in Ok (t, repeats)) pos2len (fst x, repeat keep n) in spread t repeats).
  Proof.
    unfold logged_add_axes. generalize (repeat keep n). revert x. induction pos2len as [|[p l] pos2len IH]; intros x rep; cbn [foldM]; [cbn [bind]; apply erase_note|].
    destruct (t_expand_dims (fst x) p) as [t|]; [|reflexivity]. cbn [note bind]. destruct (list_upd rep p l) as [rep'|]; [|reflexivity]. cbn [bind]. apply (IH (t, shp t :: snd x)).
  Qed.

  (** *** backends *)
  Record same_backend (LB : backend (logged A) Z) (B : backend (tensor A) Z) : Prop := {
    sb_shape : forall x, b_shape LB x = b_shape B (fst x);
    sb_reshape : forall x s, erase (b_reshape LB x s) = b_reshape B (fst x) s;
    sb_transpose : forall x p, erase (b_transpose LB x p) = b_transpose B (fst x) p;
    sb_reduce : forall x op axes, erase (b_reduce LB x op axes) = b_reduce B (fst x) op axes;
    sb_add : forall x n added, erase (b_add_axes LB x n added) = b_add_axes B (fst x) n added;
    sb_stack : forall xs, erase (b_stack LB xs) = b_stack B (map fst xs);
    sb_concat : forall xs axis, erase (b_concat LB xs axis) = b_concat B (map fst xs) axis;
    sb_slice : forall x axis lo hi, erase (b_slice LB x axis lo hi) = b_slice B (fst x) axis lo hi;
    sb_float : forall x, b_is_float LB x = b_is_float B (fst x) }.
  Lemma logged_same : same_backend (logged_backend r) (rt_backend r).
  Proof.
    unfold logged_backend, rt_backend, backend_of. destruct (rt_framework r); split; intros; cbn; rewrite ?erase_note; try reflexivity;
      first [apply erase_joint|apply erase_torch|apply erase_torch_jit|apply erase_sequential|apply erase_oneflow|apply erase_paddle|apply erase_add_axes].
  Qed.
  Section Any.
    Context (LB : backend (logged A) Z) (B : backend (tensor A) Z) (SB : same_backend LB B).
    Lemma erase_opt {X} (o : option X) (f : X -> result (logged A)) (f' : X -> result (tensor A)) x : (forall a, erase (f a) = f' a) ->
      erase (match o with Some a => f a | None => Ok x end) = match o with Some a => f' a | None => Ok (fst x) end.
    Proof. destruct o; [auto|reflexivity]. Qed.
    Lemma erase_cooked (k : cooked Z) x red red' : erases_to red red' -> erase (apply_cooked LB k x red) = apply_cooked B k (fst x) red'.
    Proof.
      intros HR. unfold apply_cooked. apply erase_bind; [apply erase_opt; intros s; apply (sb_reshape _ _ SB)|]. intros t1.
      apply erase_bind; [apply erase_opt; intros p; apply (sb_transpose _ _ SB)|]. intros t2. apply erase_bind.
      { destruct (k_reduced k); [reflexivity|]. destruct HR as [s|g f Hg]; cbn [reduce_axes]; [|apply Hg]. rewrite (sb_float _ _ SB).
        destruct (raise_if (negb (str_mem s reductions)) AssertionError); [|reflexivity]. cbn [bind]. destruct (raise_if _ _); [|reflexivity]. cbn [bind]. apply (sb_reduce _ _ SB). }
      intros t3. apply erase_bind; [destruct (k_added k); [reflexivity|apply (sb_add _ _ SB)]|]. intros t4. apply erase_opt. intros s. apply (sb_reshape _ _ SB).
    Qed.
    Lemma erase_stack (x : input (logged A)) : erase (stack_input LB x) = stack_input B (plain x).
    Proof. destruct x as [t|[|t ts]]; [reflexivity|reflexivity|]. cbn [stack_input plain map]. apply (sb_stack _ _ SB). Qed.
  End Any.
  Lemma op_erase red red' : @erases_to A red red' -> op_of red = op_of red'.
  Proof. intros []; reflexivity. Qed.
  Lemma erase_reduce (x : input (logged A)) pattern red red' sizes : erases_to red red' -> erase (logged_reduce r x pattern red sizes) = reduce r (plain x) pattern red' sizes.
  Proof.
    intros HR. unfold logged_reduce, reduce, api_reduce. destruct (check_kwargs reserved_kwargs sizes); [|reflexivity]. cbn [bind].
    apply erase_bind; [apply erase_stack, logged_same|]. intros t. rewrite (sb_shape _ _ logged_same), (op_erase _ _ HR).
    destruct (prepare_recipe _ _ _ _ _ _) as [rec|]; [|reflexivity]. cbn [bind]. unfold apply_recipe. rewrite (sb_shape _ _ logged_same).
    destruct (reconstruct _ _ _ _) as [k|]; [|reflexivity]. cbn [bind]. apply erase_cooked; [apply logged_same|exact HR].
  Qed.
  Lemma erase_xp_reduce (x : input (logged A)) pattern red red' sizes : erases_to red red' -> erase (logged_xp_reduce r x pattern red sizes) = xp_reduce_ r (plain x) pattern red' sizes.
  Proof.
    intros HR. unfold logged_xp_reduce, xp_reduce_, aa_reduce. destruct (check_kwargs reserved_kwargs sizes); [|reflexivity]. cbn [bind].
    apply erase_bind.
    { destruct x as [t|[|t ts]]; [reflexivity|reflexivity|]. cbn [stack_input_array_api plain map]. apply erase_note. }
    intros t. rewrite (op_erase _ _ HR). change (xp_shape (logged_ns r) t) with (xp_shape (rt_ns r) (fst t)).
    destruct (prepare_recipe _ _ _ _ _ _) as [rec|]; [|reflexivity]. cbn [bind]. unfold apply_recipe_array_api. change (xp_shape (logged_ns r) t) with (xp_shape (rt_ns r) (fst t)).
    destruct (reconstruct _ _ _ _) as [k|]; [|reflexivity]. cbn [bind]. unfold apply_cooked_array_api.
    apply erase_bind; [apply erase_opt; intros s; apply erase_note|]. intros t1. apply erase_bind; [apply erase_opt; intros p; apply erase_note|]. intros t2. apply erase_bind.
    { destruct (k_reduced k); [reflexivity|]. destruct HR as [s|g f Hg]; [|apply Hg].
      destruct (raise_if (negb (str_mem s reductions)) AssertionError); [|reflexivity]. cbn [bind]. apply erase_note. }
    intros t3. apply erase_bind.
    { destruct (k_added k) as [|pl added]; [reflexivity|]. apply erase_bind; [apply erase_fold; intros y [p l]; apply erase_note|]. intros t4.
      change (xp_shape (logged_ns r) t4) with (xp_shape (rt_ns r) (fst t4)). destruct (foldM _ _ (xp_shape (rt_ns r) (fst t4))) as [s|]; [|reflexivity]. cbn [bind]. apply erase_note. }
    intros t4. apply erase_opt. intros s. apply erase_note.
  Qed.
End Erase.

Lemma mapM_from {X Y} (f : X -> result Y) l ys y : mapM f l = Ok ys -> In y ys -> exists x, In x l /\ f x = Ok y.
Proof.
  intros H. apply mapM_Ok_Forall2 in H. induction H as [|a b l ys Hab H IH]; intros Hin; [destruct Hin|]. destruct Hin as [<-|Hin]; [exists a; split; [left; reflexivity|exact Hab]|].
  destruct (IH Hin) as (x & I1 & I2). exists x. split; [right; exact I1|exact I2].
Qed.

(** ** How large *)
Lemma tabulate_shape {A} s f (t : tensor A) : tabulate s f = Ok t -> shp t = s.
Proof. unfold tabulate. intros H. apply bind_Ok in H as [d [_ H]]. injection H as <-. reflexivity. Qed.
Lemma prodn_select mask : forall s : list nat, prodn s <> 0 -> prodn (select false mask s) <> 0 /\ prodn (select false mask s) <= prodn s.
Proof.
  induction mask as [|m mask IH]; intros s Hs; [cbn; lia|]. destruct s as [|d s]; [cbn; lia|]. rewrite prodn_cons in Hs |- *.
  assert (Hd : d <> 0) by (intros ->; lia). assert (Hp : prodn s <> 0) by (intros E; rewrite E in Hs; lia). destruct (IH s Hp) as [I1 I2].
  cbn [select]. destruct m; cbn [Bool.eqb].
  - split; [exact I1|]. nia.
  - rewrite prodn_cons. split; [nia|]. apply Nat.mul_le_mono_l, I2.
Qed.
Lemma nodupb_NoDup l : nat_nodupb l = true -> NoDup l.
Proof.
  induction l as [|a l IH]; cbn; [constructor|]. intros H. apply andb_true_iff in H as [H1 H2]. constructor; [|auto].
  intros Hi. apply negb_true_iff in H1. unfold nat_mem in H1. assert (E : existsb (Nat.eqb a) l = true) by (apply existsb_exists; exists a; split; [exact Hi|apply Nat.eqb_refl]). congruence.
Qed.
Lemma permuted_size s p : is_permutation p (length s) = true -> prodn (map (fun a => nth a s 0) p) = prodn s.
Proof.
  unfold is_permutation. intros H. apply andb_true_iff in H as [H H3]. apply andb_true_iff in H as [H1 H2]. apply Nat.eqb_eq in H1.
  rewrite forallb_forall in H2. apply nodupb_NoDup in H3. transitivity (prodn (map (fun a => nth a s 0) (seq 0 (length s)))).
  - apply prodn_perm, Permutation_map. apply NoDup_Permutation_bis; [exact H3|rewrite seq_length; lia|]. intros a Ha. apply in_seq. apply H2, Nat.ltb_lt in Ha. lia.
  - f_equal. clear. induction s as [|d s IH]; [reflexivity|]. cbn [length seq map nth]. f_equal. rewrite <- seq_shift, map_map. exact IH.
Qed.

Section Bounds.
  Context {A : Type} (r : runtime A).
  Implicit Types (x y : logged A).
  (** all that was made between [x] and [y] has at most [N] elements *)
  Definition grows (N : nat) x y : Prop := forall s, In s (snd y) -> In s (snd x) \/ prodn s <= N.
  Lemma grows_refl N x : grows N x x.
  Proof. intros s H. left. exact H. Qed.
  Lemma grows_trans N N' x y z : grows N x y -> grows N' y z -> grows (Nat.max N N') x z.
  Proof. intros H1 H2 s Hs. destruct (H2 s Hs) as [H|H]; [destruct (H1 s H) as [H'|H']; [left; exact H'|right; lia]|right; lia]. Qed.
  Lemma grows_le N N' x y : N <= N' -> grows N x y -> grows N' x y.
  Proof. intros Hl H s Hs. destruct (H s Hs); [left; assumption|right; lia]. Qed.
  Lemma grows_comp N x y z : grows N x y -> grows N y z -> grows N x z.
  Proof. intros H1 H2. eapply grows_le; [|eapply grows_trans; eassumption]. lia. Qed.
  Lemma note_grows x m y : note (snd x) m = Ok y -> m = Ok (fst y) /\ grows (size (fst y)) x y.
  Proof. destruct m as [t|]; [|discriminate]. cbn. intros H. injection H as <-. split; [reflexivity|]. intros s [<-|H]; [right; apply Nat.le_refl|left; exact H]. Qed.

  (** a step that keeps the size, or does not increase it unless its argument is empty *)
  Definition keeps x y : Prop := size (fst y) = size (fst x) /\ grows (size (fst x)) x y.
  Definition shrinks x y : Prop := size (fst x) <> 0 -> size (fst y) <> 0 /\ size (fst y) <= size (fst x) /\ grows (size (fst x)) x y.
  Lemma keeps_refl x : keeps x x.
  Proof. split; [reflexivity|apply grows_refl]. Qed.
  Lemma keeps_trans x y z : keeps x y -> keeps y z -> keeps x z.
  Proof. intros [E1 G1] [E2 G2]. split; [congruence|]. rewrite E1 in G2. eapply grows_comp; eassumption. Qed.
  Lemma keeps_shrinks x y : keeps x y -> shrinks x y.
  Proof. intros [E G] Hn. rewrite E. auto. Qed.
  Lemma shrinks_trans x y z : shrinks x y -> shrinks y z -> shrinks x z.
  Proof.
    intros H1 H2 Hn. destruct (H1 Hn) as (N1 & L1 & G1). destruct (H2 N1) as (N2 & L2 & G2). split; [exact N2|]. split; [lia|].
    eapply grows_comp; [exact G1|]. eapply grows_le; [|exact G2]. exact L1.
  Qed.
  Lemma reshape_keeps x s y : note (snd x) (t_reshape (rt_lib r) (fst x) s) = Ok y -> keeps x y.
  Proof.
    intros H. apply note_grows in H as [H G]. unfold t_reshape in H. apply bind_Ok in H as [s' [E H]]. injection H as H. apply resolve_prod in E.
    assert (Es : size (fst y) = size (fst x)) by (unfold size; rewrite <- H; exact E). split; [exact Es|]. rewrite <- Es. exact G.
  Qed.
  Lemma transpose_keeps x p y : note (snd x) (t_transpose (fst x) p) = Ok y -> keeps x y.
  Proof.
    intros H. apply note_grows in H as [H G]. unfold t_transpose in H. destruct (is_permutation p (length (shp (fst x)))) eqn:E; [|discriminate]. apply tabulate_shape in H.
    assert (Es : size (fst y) = size (fst x)) by (unfold size; rewrite H; apply permuted_size, E). split; [exact Es|]. rewrite <- Es. exact G.
  Qed.
  Lemma expand_dims_keeps x p y : note (snd x) (t_expand_dims (fst x) p) = Ok y -> keeps x y.
  Proof.
    intros H. apply note_grows in H as [H G]. unfold t_expand_dims in H. destruct (p <=? length (shp (fst x))); [|discriminate]. injection H as H.
    assert (Es : size (fst y) = size (fst x)).
    { unfold size. rewrite <- H. cbn [shp]. unfold insert_at. rewrite prodn_app, prodn_cons, Nat.mul_1_l, <- prodn_app, firstn_skipn. reflexivity. }
    split; [exact Es|]. rewrite <- Es. exact G.
  Qed.
  Lemma reduce_shrinks red x axes y : note (snd x) (t_reduce red (fst x) axes) = Ok y -> shrinks x y.
  Proof.
    intros H Hn. apply note_grows in H as [H G]. unfold t_reduce in H. destruct (_ && _); [|discriminate]. apply tabulate_shape in H.
    destruct (prodn_select (map (fun k => nat_mem k axes) (seq 0 (length (shp (fst x))))) _ Hn) as [S1 S2]. rewrite <- H in S1, S2. split; [exact S1|]. split; [exact S2|].
    eapply grows_le; [exact S2|exact G].
  Qed.
  Lemma fold_shrinks {X} (f : logged A -> X -> result (logged A)) l : (forall x i y, f x i = Ok y -> shrinks x y) -> forall x y, foldM f l x = Ok y -> shrinks x y.
  Proof.
    intros Hf. induction l as [|i l IH]; intros x y H; cbn [foldM] in H; [injection H as <-; apply keeps_shrinks, keeps_refl|].
    apply bind_Ok in H as [z [H1 H2]]. eapply shrinks_trans; [eapply Hf, H1|eapply IH, H2].
  Qed.
  Lemma joint_shrinks x op axes y : logged_joint r x op axes = Ok y -> shrinks x y.
  Proof. apply reduce_shrinks. Qed.
  Lemma sequential_shrinks x op axes y : logged_sequential r x op axes = Ok y -> shrinks x y.
  Proof. apply fold_shrinks. intros z i z' H. eapply reduce_shrinks, H. Qed.
  Lemma paddle_shrinks x op axes y : logged_paddle r x op axes = Ok y -> shrinks x y.
  Proof.
    unfold logged_paddle. intros H. apply bind_Ok in H as [t [H1 H2]].
    assert (S1 : shrinks x t).
    { intros Hn. apply note_grows in H1 as [H1 G]. unfold paddle_own_reduce in H1. apply bind_Ok in H1 as [t0 [E H1]]. unfold joint_reduce, t_reduce in E.
      destruct (_ && _) eqn:Ea; [|discriminate]. apply tabulate_shape in E.
      destruct (prodn_select (map (fun k => nat_mem k axes) (seq 0 (length (shp (fst x))))) _ Hn) as [S1 S2]. rewrite <- E in S1, S2.
      assert (S3 : size (fst t) <> 0 /\ size (fst t) <= size (fst x)).
      { destruct (length axes =? length (shp (fst x))); injection H1 as H1; unfold size; rewrite <- H1; cbn [shp]; [|auto].
        change (prodn [1]) with 1. unfold size in Hn. lia. }
      destruct S3 as [S3 S4]. split; [exact S3|]. split; [exact S4|]. eapply grows_le; [exact S4|exact G]. }
    destruct (length axes =? length (shp (fst x))); [|injection H2 as <-; exact S1]. eapply shrinks_trans; [exact S1|]. apply keeps_shrinks.
    apply note_grows in H2 as [H2 G]. unfold squeeze0 in H2. destruct (shp (fst t)) as [|[|[|d]] s] eqn:Et; try discriminate. injection H2 as H2.
    assert (Es : size (fst y) = size (fst t)) by (unfold size; rewrite <- H2, Et; cbn [shp]; rewrite prodn_cons; lia). split; [exact Es|]. rewrite <- Es. exact G.
  Qed.
  Lemma backend_shrinks x op axes y : b_reduce (logged_backend r) x op axes = Ok y -> shrinks x y.
  Proof.
    unfold logged_backend. destruct (rt_framework r); cbn [logged_with b_reduce]; try apply joint_shrinks; try apply sequential_shrinks; try apply paddle_shrinks.
    - unfold logged_torch. destruct (str_mem op _); [apply joint_shrinks|]. destruct (str_mem op _); [apply sequential_shrinks|discriminate].
    - apply fold_shrinks. intros z i z' H. destruct (str_mem op reductions); [|discriminate]. eapply reduce_shrinks, H.
    - unfold logged_torch_jit. destruct (str_mem op _); [apply joint_shrinks|]. destruct (str_eqb op _); [apply sequential_shrinks|discriminate].
  Qed.
  Lemma spread_grows keep spread x n added y : logged_add_axes keep spread x n added = Ok y -> grows (Nat.max (size (fst x)) (size (fst y))) x y.
  Proof.
    unfold logged_add_axes. intros H. apply bind_Ok in H as [[z rep] [H1 H2]].
    assert (K : keeps x z).
    { revert H1. generalize (repeat keep n). revert x. induction added as [|[p l] added IH]; intros x rep0 H1; cbn [foldM] in H1; [injection H1 as <- _; apply keeps_refl|].
      apply bind_Ok in H1 as [[w rep1] [E H1]]. apply bind_Ok in E as [w' [E1 E2]]. apply bind_Ok in E2 as [rep2 [_ E2]]. injection E2 as -> ->.
      eapply keeps_trans; [eapply expand_dims_keeps, E1|eapply IH, H1]. }
    apply note_grows in H2 as [_ G]. eapply grows_trans; [apply K|exact G].
  Qed.

  Lemma opt_keeps {X} (o : option X) (f : X -> result (logged A)) x y : (forall a, f a = Ok y -> keeps x y) ->
    match o with Some a => f a | None => Ok x end = Ok y -> keeps x y.
  Proof. intros Hf. destruct o; [apply Hf|]. intros H. injection H as <-. apply keeps_refl. Qed.
  (** the five steps *)
  Lemma five_steps x t2 t3 t4 y : keeps x t2 -> (size (fst t2) <> 0 -> size (fst t3) <= size (fst t2) /\ grows (size (fst t2)) t2 t3) ->
    grows (Nat.max (size (fst t3)) (size (fst t4))) t3 t4 -> keeps t4 y -> size (fst x) <> 0 -> grows (Nat.max (size (fst x)) (size (fst y))) x y.
  Proof.
    intros [E1 G1] S3 G3 [E4 G4] Hn. destruct S3 as [L3 G2]; [rewrite E1; exact Hn|]. rewrite E1 in L3, G2. rewrite E4.
    eapply grows_comp; [eapply grows_le; [|exact G1]; lia|]. eapply grows_comp; [eapply grows_le; [|exact G2]; lia|].
    eapply grows_comp; [eapply grows_le; [|exact G3]; lia|]. eapply grows_le; [|exact G4]. lia.
  Qed.
  Lemma cooked_grows (k : cooked Z) x red y : modest red -> apply_cooked (logged_backend r) k x red = Ok y -> size (fst x) <> 0 -> grows (Nat.max (size (fst x)) (size (fst y))) x y.
  Proof.
    intros Hm H. unfold apply_cooked in H. apply bind_Ok in H as [t1 [H1 H]]. apply bind_Ok in H as [t2 [H2 H]]. apply bind_Ok in H as [t3 [H3 H]]. apply bind_Ok in H as [t4 [H4 H5]].
    assert (RS : forall a s b, b_reshape (logged_backend r) a s = Ok b -> keeps a b) by (unfold logged_backend; intros a s b; destruct (rt_framework r); apply reshape_keeps).
    assert (TR : forall a s b, b_transpose (logged_backend r) a s = Ok b -> keeps a b) by (unfold logged_backend; intros a s b; destruct (rt_framework r); apply transpose_keeps).
    apply (five_steps x t2 t3 t4 y).
    - apply (keeps_trans x t1 t2); [revert H1; apply opt_keeps; intros s; apply RS|revert H2; apply opt_keeps; intros s; apply TR].
    - intros Hn. destruct (k_reduced k) as [|i l]; [injection H3 as <-; split; [apply Nat.le_refl|apply grows_refl]|]. destruct red as [s|g]; cbn [reduce_axes modest] in *.
      + apply bind_Ok in H3 as [? [_ H3]]. apply bind_Ok in H3 as [? [_ H3]]. destruct (backend_shrinks _ _ _ _ H3 Hn) as (_ & L & G). auto.
      + destruct (Hm _ _ _ H3 Hn) as [L G]. auto.
    - destruct (k_added k); [injection H4 as <-; apply grows_refl|]. revert H4. unfold logged_backend. destruct (rt_framework r); cbn [logged_with b_add_axes]; apply spread_grows.
    - revert H5. apply opt_keeps. intros s. apply RS.
  Qed.
  Lemma xp_cooked_grows (k : cooked Z) x red y : modest red -> apply_cooked_array_api (logged_ns r) k x red = Ok y -> size (fst x) <> 0 -> grows (Nat.max (size (fst x)) (size (fst y))) x y.
  Proof.
    intros Hm H. unfold apply_cooked_array_api in H. apply bind_Ok in H as [t1 [H1 H]]. apply bind_Ok in H as [t2 [H2 H]]. apply bind_Ok in H as [t3 [H3 H]]. apply bind_Ok in H as [t4 [H4 H5]].
    apply (five_steps x t2 t3 t4 y).
    - apply (keeps_trans x t1 t2); [revert H1; apply opt_keeps; intros s; apply reshape_keeps|revert H2; apply opt_keeps; intros s; apply transpose_keeps].
    - intros Hn. destruct (k_reduced k) as [|i l]; [injection H3 as <-; split; [apply Nat.le_refl|apply grows_refl]|]. destruct red as [s|g]; cbn [modest] in *.
      + apply bind_Ok in H3 as [? [_ H3]]. destruct (joint_shrinks _ _ _ _ H3 Hn) as (_ & L & G). auto.
      + destruct (Hm _ _ _ H3 Hn) as [L G]. auto.
    - destruct (k_added k) as [|pl added]; [injection H4 as <-; apply grows_refl|]. apply bind_Ok in H4 as [z [E H4]]. apply bind_Ok in H4 as [s [_ H4]].
      assert (K : keeps t3 z).
      { clear - E. revert t3 E. induction (pl :: added) as [|[p l] added' IH]; intros t3 E; cbn [foldM] in E; [injection E as <-; apply keeps_refl|].
        apply bind_Ok in E as [w [E1 E]]. eapply keeps_trans; [eapply expand_dims_keeps, E1|eapply IH, E]. }
      apply note_grows in H4 as [_ G]. eapply grows_trans; [apply K|exact G].
    - revert H5. apply opt_keeps. intros s. apply reshape_keeps.
  Qed.

  (** stacking *)
  Lemma stacked_size ts (t : tensor A) : t_stack ts = Ok t -> size t = list_sum (map size ts).
  Proof.
    unfold t_stack. destruct ts as [|t0 ts]; [discriminate|]. destruct (forallb _ _) eqn:E; [|discriminate]. intros H. injection H as <-.
    rewrite forallb_forall in E. transitivity (length (t0 :: ts) * prodn (shp t0)); [reflexivity|].
    assert (E' : forall t, In t (t0 :: ts) -> size t = prodn (shp t0)).
    { intros t Ht. apply E in Ht. unfold shape_eqb in Ht. unfold size. destruct (list_eq_dec Nat.eq_dec (shp t) (shp t0)) as [->|]; [reflexivity|discriminate]. }
    revert E'. generalize (t0 :: ts) (prodn (shp t0)). clear. intros l n. induction l as [|t l IH]; intros H; [reflexivity|]. cbn [length map list_sum fold_right]. rewrite (H t (or_introl eq_refl)).
    change (fold_right Nat.add 0 (map size l)) with (list_sum (map size l)). rewrite <- IH; [lia|]. intros t' Ht. apply H. right. exact Ht.
  Qed.
  Lemma logs_fresh (ts : list (tensor A)) : logs (map (fun t => (t, [])) ts) = [].
  Proof. induction ts; [reflexivity|assumption]. Qed.
  Lemma map_fresh (ts : list (tensor A)) : map fst (map (fun t => (t, [] : list (list nat))) ts) = ts.
  Proof. rewrite map_map. apply map_id. Qed.
  Lemma stacked_log (x : input (tensor A)) (t : logged A) : 
    match fresh x with One t => Ok t | Many [] => Err TypeError | Many ts => note (logs ts) (t_stack (map fst ts)) end = Ok t ->
    size (fst t) = input_size x /\ forall s, In s (snd t) -> prodn s <= input_size x.
  Proof.
    destruct x as [t0|[|t0 ts]]; cbn [fresh]; [intros H; injection H as <-; split; [reflexivity|intros s []]|discriminate|].
    intros H. change (note (logs (map (fun t => (t, [])) (t0 :: ts))) (t_stack (map fst (map (fun t => (t, [] : list (list nat))) (t0 :: ts)))) = Ok t) in H.
    rewrite logs_fresh, map_fresh in H. destruct (t_stack (t0 :: ts)) as [t'|] eqn:E; [|discriminate]. injection H as <-. apply stacked_size in E. cbn [fst snd].
    split; [exact E|]. intros s [<-|[]]. apply Nat.eq_le_incl, E.
  Qed.
  Lemma reduce_bound (x : input (tensor A)) pattern red sizes (y : tensor A) log : modest red -> logged_reduce r (fresh x) pattern red sizes = Ok (y, log) -> input_size x <> 0 ->
    forall s, In s log -> prodn s <= Nat.max (input_size x) (size y).
  Proof.
    intros Hm H Hn s Hs. unfold logged_reduce, api_reduce in H. apply bind_Ok in H as [? [_ H]]. apply bind_Ok in H as [t [Ht H]]. apply bind_Ok in H as [rec [_ H]].
    unfold apply_recipe in H. apply bind_Ok in H as [k [_ H]].
    assert (St : size (fst t) = input_size x /\ forall s, In s (snd t) -> prodn s <= input_size x).
    { apply stacked_log. revert Ht. unfold stack_input, logged_backend. destruct (fresh x) as [|[|]]; [auto|auto|]. destruct (rt_framework r); auto. }
    destruct St as [S1 S2]. rewrite <- S1 in Hn. apply (cooked_grows _ _ _ _ Hm H) in Hn. destruct (Hn s Hs) as [G|G]; [apply S2 in G; lia|]. cbn [fst] in G. rewrite S1 in G. exact G.
  Qed.
  Lemma xp_reduce_bound (x : input (tensor A)) pattern red sizes (y : tensor A) log : modest red -> logged_xp_reduce r (fresh x) pattern red sizes = Ok (y, log) -> input_size x <> 0 ->
    forall s, In s log -> prodn s <= Nat.max (input_size x) (size y).
  Proof.
    intros Hm H Hn s Hs. unfold logged_xp_reduce, aa_reduce in H. apply bind_Ok in H as [? [_ H]]. apply bind_Ok in H as [t [Ht H]]. apply bind_Ok in H as [rec [_ H]].
    unfold apply_recipe_array_api in H. apply bind_Ok in H as [k [_ H]].
    assert (St : size (fst t) = input_size x /\ forall s, In s (snd t) -> prodn s <= input_size x).
    { apply stacked_log. revert Ht. unfold stack_input_array_api, logged_ns. destruct (fresh x) as [|[|]]; auto. }
    destruct St as [S1 S2]. rewrite <- S1 in Hn. apply (xp_cooked_grows _ _ _ _ Hm H) in Hn. destruct (Hn s Hs) as [G|G]; [apply S2 in G; lia|]. cbn [fst] in G. rewrite S1 in G. exact G.
  Qed.

  (** *** pack and unpack *)
  Notation LB := (logged_backend r).
  Lemma lb_reshape x s y : b_reshape LB x s = Ok y -> keeps x y.
  Proof. unfold logged_backend. destruct (rt_framework r); apply reshape_keeps. Qed.
  Lemma lb_concat xs axis : b_concat LB xs axis = note (logs xs) (t_concat (map fst xs) axis).
  Proof. unfold logged_backend. destruct (rt_framework r); reflexivity. Qed.
  Lemma lb_slice x axis lo hi : b_slice LB x axis lo hi = note (snd x) (t_slice (fst x) axis lo hi).
  Proof. unfold logged_backend. destruct (rt_framework r); reflexivity. Qed.
  Lemma replace_size axis s : axis < length s -> forall d, prodn (replace_nth axis d s) = d * prodn (replace_nth axis 1 s).
  Proof.
    intros Hl d. unfold replace_nth. destruct (skipn axis s) as [|a l] eqn:E; [apply (f_equal (@length nat)) in E; rewrite skipn_length in E; cbn in E; lia|].
    rewrite !prodn_app, !prodn_cons. lia.
  Qed.
  Lemma replace_self axis (s : list nat) : axis < length s -> replace_nth axis (nth axis s 0) s = s.
  Proof.
    intros Hl. unfold replace_nth. destruct (skipn axis s) as [|a l] eqn:E; [apply (f_equal (@length nat)) in E; rewrite skipn_length in E; cbn in E; lia|].
    rewrite <- (firstn_skipn axis s) at 2 3. rewrite E, app_nth2; rewrite firstn_length_le by lia; [|lia]. rewrite Nat.sub_diag. reflexivity.
  Qed.
  Lemma axis_size axis s : axis < length s -> prodn s = nth axis s 0 * prodn (replace_nth axis 1 s).
  Proof. intros Hl. rewrite <- replace_size by exact Hl. rewrite replace_self by exact Hl. reflexivity. Qed.
  Lemma slice_smaller (t t' : tensor A) axis lo hi : t_slice t axis lo hi = Ok t' -> size t' <= size t.
  Proof.
    unfold t_slice. destruct (axis <? length (shp t)) eqn:E; [|discriminate]. apply Nat.ltb_lt in E. intros H. apply tabulate_shape in H. unfold size. rewrite H, replace_size by exact E.
    rewrite (axis_size axis (shp t) E). apply Nat.mul_le_mono_r. unfold slice_bound. lia.
  Qed.
  Lemma replace_length axis (d : nat) s : length (replace_nth axis d s) = length s.
  Proof.
    unfold replace_nth. rewrite app_length. pose proof (skipn_length axis s) as L. rewrite firstn_length. destruct (skipn axis s); cbn [length] in *; lia.
  Qed.
  Lemma replace_same axis s s' d : axis < length s' -> replace_nth axis 0 s = replace_nth axis 0 s' -> replace_nth axis d s = replace_nth axis d s'.
  Proof.
    intros Hl H. assert (Hl' : axis < length s) by (rewrite <- (replace_length axis 0 s), H, replace_length; exact Hl). unfold replace_nth in *.
    destruct (skipn axis s) as [|a l] eqn:E; [apply (f_equal (@length nat)) in E; rewrite skipn_length in E; cbn in E; lia|].
    destruct (skipn axis s') as [|a' l'] eqn:E'; [apply (f_equal (@length nat)) in E'; rewrite skipn_length in E'; cbn in E'; lia|].
    assert (F : firstn axis s = firstn axis s').
    { apply (f_equal (firstn axis)) in H. rewrite !firstn_app, !firstn_firstn, !firstn_length_le, !Nat.sub_diag, !Nat.min_id in H by lia. cbn [firstn] in H. rewrite !app_nil_r in H. exact H. }
    rewrite F in H. apply app_inv_head in H. injection H as ->. rewrite F. reflexivity.
  Qed.
  Lemma concat_larger (ts : list (tensor A)) axis t : t_concat ts axis = Ok t -> forall t', In t' ts -> size t' <= size t.
  Proof.
    unfold t_concat. destruct ts as [|t0 ts]; [discriminate|]. destruct (_ && _) eqn:E; [|discriminate]. apply andb_true_iff in E as [E1 E2]. apply Nat.ltb_lt in E1. rewrite forallb_forall in E2.
    intros H t' Ht. apply tabulate_shape in H. pose proof (E2 t' Ht) as Es. unfold shape_eqb in Es. destruct (list_eq_dec _ _ _) as [Es'|]; [|discriminate].
    unfold size. rewrite H, replace_size by exact E1.
    assert (Hl : axis < length (shp t')) by (rewrite <- (replace_length axis 0 (shp t')), Es', replace_length; exact E1).
    rewrite (axis_size axis (shp t') Hl), (replace_same axis (shp t') (shp t0) 1 E1 Es'). apply Nat.mul_le_mono_r.
    clear - Ht. induction (t0 :: ts) as [|a l IH]; [destruct Ht|]. cbn [map list_sum fold_right]. destruct Ht as [->|Ht]; [lia|]. specialize (IH Ht). unfold list_sum in IH. lia.
  Qed.
  Lemma pack_bound (ts : list (tensor A)) pattern (y : tensor A) log shapes : logged_pack r (map (fun t => (t, [])) ts) pattern = Ok ((y, log), shapes) -> forall s, In s log -> prodn s <= size y.
  Proof.
    unfold logged_pack, pack_with, pack_given. intros H s Hs. apply bind_Ok in H as [[[before after] mn] [_ H]]. apply bind_Ok in H as [? [_ H]].
    apply bind_Ok in H as [[reshaped shapes'] [H1 H]]. apply bind_Ok in H as [t [H2 H]]. injection H as -> ->. rewrite lb_concat in H2.
    destruct (t_concat (map fst reshaped) before) as [y'|] eqn:E; [|discriminate]. injection H2 as <- <-. cbn [In] in Hs. destruct Hs as [<-|Hs]; [apply Nat.le_refl|].
    unfold logs in Hs. apply in_flat_map in Hs as (z & Hz & Hs). transitivity (size (fst z)); [|eapply concat_larger; [exact E|apply in_map, Hz]].
    revert z Hz Hs.
    assert (G : forall l acc sh out shs, foldM (fun '(reshaped, packed_shapes) tensor =>
        let shape := b_shape LB tensor in let* _ := raise_if (length shape <? mn) EinopsError in
        let* t := b_reshape LB tensor (firstn before shape ++ [(-1)%Z] ++ skipn (length shape - after) shape) in
        Ok (reshaped ++ [t], packed_shapes ++ [skipn before (firstn (length shape - after) shape)])) (map (fun t => (t, [])) l) (acc, sh) = Ok (out, shs) ->
      (forall z s, In z acc -> In s (snd z) -> prodn s <= size (fst z)) -> forall z s, In z out -> In s (snd z) -> prodn s <= size (fst z)).
    { induction l as [|a l IH]; intros acc sh out shs F Ha; cbn [map foldM] in F; [injection F as <- <-; exact Ha|]. cbv zeta in F.
      apply bind_Ok in F as [[acc' sh'] [F1 F2]]. apply bind_Ok in F1 as [? [_ F1]]. apply bind_Ok in F1 as [t [F1 F3]]. injection F3 as <- <-.
      eapply IH; [exact F2|]. intros z s' Hz Hs. apply in_app_iff in Hz as [Hz|[<-|[]]]; [eapply Ha; eassumption|]. apply lb_reshape in F1 as [K1 K2]. destruct (K2 s' Hs) as [[]|K]. rewrite K1. exact K. }
    intros z Hz Hs. apply (G ts [] [] reshaped shapes H1) with (z := z); [intros ? ? []|exact Hz|exact Hs].
  Qed.
  Lemma unpack_bound (x : tensor A) shapes pattern ys : logged_unpack r (x, []) shapes pattern = Ok ys -> forall (y : tensor A) log s, In (y, log) ys -> In s log -> prodn s <= size x.
  Proof.
    unfold logged_unpack, unpack_with, unpack_given. intros H y log s Hy Hs. apply bind_Ok in H as [[[before after] mn] [_ H]]. apply bind_Ok in H as [? [_ H]]. apply bind_Ok in H as [? [_ H]].
    apply bind_Ok in H as [n [_ H]]. apply bind_Ok in H as [sp [_ H]]. destruct (mapM _ (enumerate shapes)) as [ts|] eqn:E; [|discriminate]. injection H as ->.
    destruct (mapM_from _ _ _ _ E Hy) as ([i sh] & _ & F). apply bind_Ok in F as [a [_ F]]. apply bind_Ok in F as [b [_ F]]. apply bind_Ok in F as [piece [F1 F2]].
    rewrite lb_slice in F1. apply note_grows in F1 as [F1 G1]. apply slice_smaller in F1. apply lb_reshape in F2 as [K1 K2]. cbn [fst snd] in *.
    destruct (K2 s Hs) as [K|K]; [|lia]. destruct (G1 s K) as [[]|K']. lia.
  Qed.
End Bounds.

Section ErasePack.
  Context {A : Type} (r : runtime A).
  Notation LB := (logged_backend r).
  Notation B := (rt_backend r).
  Lemma erase_unpack (x : logged A) packed pattern : (let* ts := logged_unpack r x packed pattern in Ok (map fst ts)) = unpack r (fst x) packed pattern.
  Proof.
    unfold logged_unpack, unpack, unpack_with, unpack_given. rewrite (sb_shape _ _ (logged_same r)).
    destruct (analyze_pattern (rt_unicode r) pattern) as [[[n m] k]|ex]; [|reflexivity]. cbn [bind].
    destruct (raise_if (negb (length (b_shape B (fst x)) =? n + 1 + m)) EinopsError); [|reflexivity]. cbn [bind].
    destruct (raise_if (1 <? length (filter (fun x0 => (x0 =? -1)%Z) (composed_lengths packed))) EinopsError); [|reflexivity]. cbn [bind].
    destruct (list_get (b_shape B (fst x)) n) as [q|ex]; [|reflexivity]. cbn [bind].
    destruct (split_positions q (composed_lengths packed)) as [sp|ex]; [|reflexivity]. cbn [bind].
    set (g := fun '(i, element_shape) => _). set (h := fun '(i, element_shape) => _).
    assert (E : forall a, erase (g a) = h a).
    { intros [i s]. unfold g, h. destruct (list_get sp i) as [lo|]; [|reflexivity]. cbn [bind]. destruct (list_get sp (i + 1)) as [hi|]; [|reflexivity]. cbn [bind].
      rewrite <- (sb_slice _ _ (logged_same r)). destruct (b_slice LB x n lo hi); [|reflexivity]. cbn [bind erase]. apply (sb_reshape _ _ (logged_same r)). }
    assert (M : (let* ts := mapM g (enumerate packed) in Ok (map fst ts)) = mapM h (enumerate packed)).
    { clear -E. induction (enumerate packed) as [|a l IH]; [reflexivity|]. cbn [mapM]. rewrite <- E. destruct (g a) as [y|ex]; [|reflexivity]. cbn [erase bind]. rewrite <- IH. destruct (mapM g l); reflexivity. }
    rewrite <- M. destruct (mapM g (enumerate packed)); reflexivity.
  Qed.
  Lemma erase_pack (xs : list (logged A)) pattern : (let* (t, ps) := logged_pack r xs pattern in Ok (fst t, ps)) = pack r (map fst xs) pattern.
  Proof.
    unfold logged_pack, pack, pack_with, pack_given.
    destruct (analyze_pattern (rt_unicode r) pattern) as [[[n m] k]|ex]; [|reflexivity]. cbn [bind].
    destruct (nth_error xs 0) as [x0|] eqn:N1, (nth_error (map fst xs) 0) as [x1|] eqn:N2; try (destruct xs; discriminate); [|reflexivity]. cbn [of_option bind].
    set (g := fun '(reshaped, packed_shapes) tensor => _). set (h := fun '(reshaped, packed_shapes) tensor => _).
    assert (S : forall l acc ps, (let* (ts, qs) := foldM g l (acc, ps) in Ok (map fst ts, qs)) = foldM h (map fst l) (map fst acc, ps)).
    { induction l as [|x l IH]; intros acc ps; [reflexivity|]. cbn [foldM map]. unfold g at 1, h at 1. rewrite (sb_shape _ _ (logged_same r)).
      destruct (raise_if (length (b_shape B (fst x)) <? k) EinopsError); [|reflexivity]. cbn [bind]. rewrite <- (sb_reshape _ _ (logged_same r)).
      destruct (b_reshape LB x _) as [t|ex]; [|reflexivity]. cbn [erase bind].
      specialize (IH (acc ++ [t]) (ps ++ [skipn n (firstn (length (b_shape B (fst x)) - m) (b_shape B (fst x)))])). rewrite map_app in IH. exact IH. }
    specialize (S xs [] []). cbn [map] in S. rewrite <- S. destruct (foldM g xs ([], [])) as [[ts qs]|ex]; [|reflexivity]. cbn [bind].
    rewrite <- (sb_concat _ _ (logged_same r)). destruct (b_concat LB ts n); reflexivity.
  Qed.
End ErasePack.
