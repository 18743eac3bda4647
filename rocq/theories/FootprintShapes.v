(** * The exact shapes of the tensors made by a correct call *)
From Verif Require Import Py Tensor ListFacts TensorFacts SpecSem SpecGrammar SpecPattern SpecOps SpecCalls Parsing Recipe Ops Backends Api Packing
  StrideFacts2 FrontFacts3 MainFacts3 StepFacts ReduceFacts CallsFacts Footprint SpecFootprint FootprintFacts.

Lemma note_Ok {A} log (m : result (tensor A)) y : note log m = Ok y -> m = Ok (fst y) /\ snd y = shp (fst y) :: log.
Proof. unfold note. intros H. apply bind_Ok in H as [t [-> H]]. injection H as <-. split; reflexivity. Qed.
Lemma reshape_shape {A} lib (t : tensor A) s y : t_reshape lib t (map Z.of_nat s) = Ok y -> shp y = s.
Proof.
  unfold t_reshape, resolve_shape. rewrite all_nonneg_of_nat, to_nats_of_nat. destruct (_ =? _); [|discriminate].
  cbn [bind]. intros H. injection H as <-. reflexivity.
Qed.
Lemma nth_place (len : label -> nat) l a : In a l -> nth (place l a) (map len l) 0 = len a.
Proof.
  induction l as [|b l IH]; [intros []|]. intros H. cbn [place map]. destruct (label_eqb a b) eqn:E; cbn [nth].
  - apply label_eqb_eq in E. subst b. reflexivity.
  - destruct H as [->|H]; [|auto]. rewrite (proj2 (label_eqb_eq a a) eq_refl) in E. discriminate.
Qed.
Lemma transpose_shape {A} (t : tensor A) p y : t_transpose t p = Ok y -> shp y = map (fun a => nth a (shp t) 0) p.
Proof. unfold t_transpose. destruct (is_permutation _ _); [|discriminate]. apply tabulate_shape. Qed.
Lemma select_split {X} a b (l1 l2 : list X) : length l1 = a -> length l2 = b ->
  select false (map (fun k => nat_mem k (seq a b)) (seq 0 (a + b))) (l1 ++ l2) = l1.
Proof.
  intros <- <-. rewrite seq_app, map_app. cbn [Nat.add].
  assert (E1 : map (fun k => nat_mem k (seq (length l1) (length l2))) (seq 0 (length l1)) = map (fun _ => false) l1).
  { transitivity (map (fun _ : nat => false) (seq 0 (length l1))).
    - apply map_ext_in. intros k Hk. apply in_seq in Hk. destruct (nat_mem _ _) eqn:E; [|reflexivity].
      apply existsb_exists in E as (j & Hj & E). apply Nat.eqb_eq in E. apply in_seq in Hj. lia.
    - generalize 0. induction l1 as [|x l IH]; intros n; [reflexivity|]. cbn. f_equal. apply IH. }
  assert (E2 : map (fun k => nat_mem k (seq (length l1) (length l2))) (seq (length l1) (length l2)) = map (fun _ => true) l2).
  { transitivity (map (fun _ : nat => true) (seq (length l1) (length l2))).
    - apply map_ext_in. intros k Hk. apply existsb_exists. exists k. split; [exact Hk|apply Nat.eqb_refl].
    - generalize (length l1). clear. induction l2 as [|x l IH]; intros n; [reflexivity|]. cbn. f_equal. apply IH. }
  rewrite E1, E2. clear. induction l1 as [|x l IH]; cbn [map app select Bool.eqb]; [|f_equal; exact IH].
  induction l2 as [|x l IH]; [reflexivity|exact IH].
Qed.
Lemma reduce_shape {A} red (t : tensor A) s1 s2 y : shp t = s1 ++ s2 -> t_reduce red t (seq (length s1) (length s2)) = Ok y -> shp y = s1.
Proof.
  intros Hs. unfold t_reduce. destruct (_ && _); [|discriminate]. intros H. apply tabulate_shape in H. rewrite H, Hs, app_length.
  apply select_split; reflexivity.
Qed.

Section Shapes.
  Context {A : Type} (r : runtime A) (gl gr : list (list label)) (len : label -> nat).
  Notation old := (is_old gl).
  (** from [x] to [y] these were made *)
  Definition made (x : logged A) (new : list (list nat)) (y : logged A) : Prop := snd y = rev new ++ snd x.
  Lemma made_nil x : made x [] x.
  Proof. reflexivity. Qed.
  Lemma made_app x n1 y n2 z : made x n1 y -> made y n2 z -> made x (n1 ++ n2) z.
  Proof. unfold made. intros H1 H2. rewrite H2, H1, rev_app_distr, app_assoc. reflexivity. Qed.
  Lemma made_note x m y : note (snd x) m = Ok y -> made x [shp (fst y)] y.
  Proof. intros H. apply note_Ok in H as [_ H]. exact H. Qed.

  Lemma lb_reshape x s : b_reshape (logged_backend r) x s = note (snd x) (t_reshape (rt_lib r) (fst x) s).
  Proof. unfold logged_backend. destruct (rt_framework r); reflexivity. Qed.
  Lemma lb_transpose x p : b_transpose (logged_backend r) x p = note (snd x) (t_transpose (fst x) p).
  Proof. unfold logged_backend. destruct (rt_framework r); reflexivity. Qed.
  Lemma lb_shape x : b_shape (logged_backend r) x = map Z.of_nat (shp (fst x)).
  Proof. unfold logged_backend. destruct (rt_framework r); reflexivity. Qed.

  (** ** Reductions *)
  Lemma joint_made x op y s1 s2 : shp (fst x) = s1 ++ s2 -> logged_joint r x op (seq (length s1) (length s2)) = Ok y ->
    shp (fst y) = s1 /\ made x [s1] y.
  Proof.
    intros Hs H. pose proof (made_note _ _ _ H) as Hm. apply note_Ok in H as [H _]. apply (reduce_shape _ _ _ _ _ Hs) in H. rewrite H in Hm. auto.
  Qed.
  Lemma sequential_made op (f : logged A -> nat -> result (logged A)) :
    (forall x i y, f x i = Ok y -> note (snd x) (t_reduce (rt_red r op) (fst x) [i]) = Ok y) ->
    forall s2 x y s1, shp (fst x) = s1 ++ s2 -> foldM f (rev (seq (length s1) (length s2))) x = Ok y ->
    shp (fst y) = s1 /\ made x (map (fun k => s1 ++ firstn k s2) (rev (seq 0 (length s2)))) y.
  Proof.
    intros Hf. induction s2 as [|d s2 IH] using rev_ind; intros x y s1 Hs H.
    - cbn in H. injection H as <-. rewrite app_nil_r in Hs. split; [exact Hs|apply made_nil].
    - rewrite app_length in H |- *. cbn [length] in H |- *. rewrite Nat.add_1_r in H |- *. rewrite seq_S, rev_app_distr in H |- *. cbn [rev app] in H |- *.
      cbn [foldM] in H. apply bind_Ok in H as [x1 [H1 H2]]. apply Hf in H1. pose proof (made_note _ _ _ H1) as Hm. apply note_Ok in H1 as [H1 _].
      change [length s1 + length s2] with (seq (length s1 + length s2) (length [d])) in H1. rewrite <- app_length in H1.
      rewrite app_assoc in Hs. apply (reduce_shape _ _ _ _ _ Hs) in H1. rewrite H1 in Hm. destruct (IH _ _ _ H1 H2) as [E1 E2].
      split; [exact E1|]. cbn [map]. rewrite Nat.add_0_l, firstn_exact.
      eapply (made_app _ [_]); [exact Hm|]. replace (map _ _) with (map (fun k => s1 ++ firstn k s2) (rev (seq 0 (length s2)))); [exact E2|].
      apply map_ext_in. intros k Hk. apply in_rev, in_seq in Hk. rewrite firstn_app. replace (k - length s2) with 0 by lia. cbn [firstn]. rewrite app_nil_r. reflexivity.
  Qed.
  Definition reductions_made (m : manner) (s1 s2 : list nat) : list (list nat) :=
    match m with
    | Together => [s1]
    | One_by_one => map (fun k => s1 ++ firstn k s2) (rev (seq 0 (length s2)))
    | Squeezing => (match s1 with [] => [[1]] | _ => [] end) ++ [s1]
    end.
  Lemma reduce_made x op y s1 s2 : s2 <> [] -> shp (fst x) = s1 ++ s2 -> b_reduce (logged_backend r) x op (seq (length s1) (length s2)) = Ok y ->
    shp (fst y) = s1 /\ made x (reductions_made (manner_of (rt_framework r) op) s1 s2) y.
  Proof.
    intros Hne Hs H. unfold logged_backend in H.
    assert (HS : logged_sequential r x op (seq (length s1) (length s2)) = Ok y -> shp (fst y) = s1 /\ made x (reductions_made One_by_one s1 s2) y).
    { unfold logged_sequential. rewrite sort_desc_seq. apply (sequential_made op); auto. }
    pose proof (joint_made x op y s1 s2 Hs) as HJ.
    destruct (rt_framework r); cbn [b_reduce logged_with] in H; cbn [manner_of]; auto.
    - unfold logged_torch in H. destruct (str_mem op [lit "min"; lit "max"; lit "sum"; lit "mean"]) eqn:E.
      + replace (str_mem op [lit "any"; lit "all"; lit "prod"]) with false; [auto|]. symmetry. apply str_mem_In in E. destruct (str_mem op [lit "any"; lit "all"; lit "prod"]) eqn:E2; [|reflexivity].
        exfalso. repeat (destruct E as [<-|E]; [vm_compute in E2; discriminate|]). destruct E.
      + destruct (str_mem op [lit "any"; lit "all"; lit "prod"]); [auto|discriminate].
    - unfold logged_oneflow in H. rewrite sort_desc_seq in H. revert H. apply (sequential_made op); [|exact Hs]. intros x' i y'. destruct (str_mem op reductions); [auto|discriminate].
    - unfold logged_paddle in H. apply bind_Ok in H as [t [H1 H]]. pose proof (made_note _ _ _ H1) as Hm. apply note_Ok in H1 as [H1 _].
      unfold paddle_own_reduce, joint_reduce in H1. apply bind_Ok in H1 as [t' [H0 H1]]. apply (reduce_shape _ _ _ _ _ Hs) in H0.
      rewrite seq_length in H, H1. rewrite Hs, app_length in H, H1. cbn [reductions_made]. destruct s1 as [|d s1].
      + cbn [length Nat.add] in H, H1. rewrite Nat.eqb_refl in H, H1. injection H1 as E. pose proof (made_note _ _ _ H) as Hm'. apply note_Ok in H as [H _].
        unfold squeeze0 in H. rewrite <- E in H. cbn [shp] in H. injection H as E'. rewrite <- E' in Hm'. rewrite <- E in Hm. cbn [shp] in Hm, Hm'.
        split; [rewrite <- E'; reflexivity|]. eapply made_app; eassumption.
      + rewrite (proj2 (Nat.eqb_neq _ _)) in H, H1 by (cbn [length]; lia). injection H1 as E. injection H as <-. rewrite <- E, H0 in Hm. split; [congruence|exact Hm].
    - unfold logged_torch_jit in H. destruct (str_mem op [lit "min"; lit "max"; lit "sum"; lit "mean"]) eqn:E.
      + replace (str_mem op [lit "any"; lit "all"; lit "prod"]) with false; [auto|]. symmetry. apply str_mem_In in E. destruct (str_mem op [lit "any"; lit "all"; lit "prod"]) eqn:E2; [|reflexivity].
        exfalso. repeat (destruct E as [<-|E]; [vm_compute in E2; discriminate|]). destruct E.
      + destruct (str_eqb op (lit "prod")) eqn:E2; [|discriminate]. apply str_eqb_eq in E2. subst op. auto.
  Qed.

  (** ** New axes *)
  Definition growing (k : nat) (done todo : list label) : list (list nat) :=
    map (fun '(i, _) => with_ones old len (firstn (S i) (done ++ todo)) ++ map len (filter old (skipn (S i) (done ++ todo))))
      (filter (fun '(_, a) => negb (old a)) (enumerate_from k todo)).
  Lemma expand_dims_shape (t : tensor A) s1 s2 y : shp t = s1 ++ s2 -> t_expand_dims t (length s1) = Ok y -> shp y = s1 ++ 1 :: s2.
  Proof.
    intros Hs. unfold t_expand_dims. destruct (_ <=? _); [|discriminate]. intros H. injection H as <-. cbn [shp]. unfold insert_at. rewrite Hs, firstn_exact, skipn_exact. reflexivity.
  Qed.
  Lemma growing_cons a done todo : growing (length done) done (a :: todo) =
    (if old a then [] else [with_ones old len done ++ 1 :: map len (filter old todo)]) ++ growing (length (done ++ [a])) (done ++ [a]) todo.
  Proof.
    unfold growing. cbn [enumerate_from filter]. rewrite app_length, Nat.add_1_r, <- app_assoc. cbn [app]. destruct (old a) eqn:E; cbn [negb]; [reflexivity|].
    cbn [map app]. f_equal. replace (done ++ a :: todo) with ((done ++ [a]) ++ todo) by (rewrite <- app_assoc; reflexivity).
    replace (S (length done)) with (length (done ++ [a])) by (rewrite app_length; cbn; lia). rewrite firstn_exact, skipn_exact.
    unfold with_ones. rewrite map_app, <- app_assoc. cbn [map app]. rewrite E. reflexivity.
  Qed.
  Lemma grow_made {S} (f : logged A * S -> nat * Z -> result (logged A * S)) :
    (forall x s p l y s', f (x, s) (p, l) = Ok (y, s') -> note (snd x) (t_expand_dims (fst x) p) = Ok y) ->
    forall todo done x s y s', shp (fst x) = with_ones old len done ++ map len (filter old todo) ->
    foldM f (added_from old len (length done) todo) (x, s) = Ok (y, s') ->
    shp (fst y) = with_ones old len (done ++ todo) /\ made x (growing (length done) done todo) y.
  Proof.
    intros Hf. induction todo as [|a todo IH]; intros done x s y s' Hs H.
    - cbn in H. injection H as <- <-. rewrite app_nil_r in Hs |- *. split; [exact Hs|apply made_nil].
    - rewrite growing_cons. unfold added_from in H. cbn [enumerate_from filter] in H. replace (done ++ a :: todo) with ((done ++ [a]) ++ todo) by (rewrite <- app_assoc; reflexivity).
      assert (EL : Datatypes.S (length done) = length (done ++ [a])) by (rewrite app_length; cbn; lia).
      cbn [filter map] in Hs. destruct (old a) eqn:E; cbn [negb] in H.
      + cbn [app]. rewrite EL in H. apply (IH _ _ _ _ _) in H; [exact H|]. rewrite Hs. unfold with_ones. rewrite map_app, <- app_assoc. cbn [map app]. rewrite E. reflexivity.
      + cbn [map foldM] in H. apply bind_Ok in H as [[x1 s1] [H1 H2]]. apply Hf in H1. pose proof (made_note _ _ _ H1) as Hm. apply note_Ok in H1 as [H1 _].
        replace (length done) with (length (with_ones old len done)) in H1 by (unfold with_ones; apply map_length).
        apply (expand_dims_shape _ _ _ _ Hs) in H1. rewrite H1 in Hm. rewrite EL in H2. apply (IH _ _ _ _ _) in H2 as [E1 E2].
        * split; [exact E1|]. eapply made_app; eassumption.
        * rewrite H1. unfold with_ones. rewrite map_app, <- app_assoc. cbn [map app]. rewrite E. reflexivity.
  Qed.
  Lemma expand_shape_reps ns : expand_shape (with_ones old len ns) (reps old len (-1) ns) = Ok (map len ns).
  Proof.
    induction ns as [|a ns IH]; [reflexivity|]. unfold with_ones, reps in *. cbn [map expand_shape]. rewrite IH. destruct (old a).
    - reflexivity.
    - unfold expand_dim. destruct (Z.eqb_spec (Z.of_nat (len a)) (-1)); [lia|]. destruct (Z.ltb_spec (Z.of_nat (len a)) 0); [lia|]. cbn [Nat.eqb bind]. rewrite Nat2Z.id. reflexivity.
  Qed.
  Lemma tile_shape_reps ns : map2 Nat.mul (with_ones old len ns) (to_nats (reps old len 1 ns)) = map len ns.
  Proof.
    induction ns as [|a ns IH]; [reflexivity|]. unfold with_ones, reps, to_nats in *. cbn [map map2]. rewrite IH. f_equal. destruct (old a); [apply Nat.mul_1_r|]. rewrite Nat2Z.id. lia.
  Qed.
  Lemma expand_shape_lens ns : expand_shape (with_ones old len ns) (map (fun a => Z.of_nat (len a)) ns) = Ok (map len ns).
  Proof.
    induction ns as [|a ns IH]; [reflexivity|]. unfold with_ones in *. cbn [map expand_shape]. rewrite IH. unfold expand_dim.
    destruct (Z.eqb_spec (Z.of_nat (len a)) (-1)); [lia|]. destruct (Z.ltb_spec (Z.of_nat (len a)) 0); [lia|]. rewrite Nat2Z.id.
    destruct (old a); [|reflexivity]. rewrite Nat.eqb_refl. destruct (len a =? 1) eqn:E; reflexivity.
  Qed.
  Lemma expand_spread (t : tensor A) zs s y : expand_shape (shp t) zs = Ok s -> t_expand t zs = Ok y -> shp y = s.
  Proof. intros Hs H. unfold t_expand in H. rewrite Hs in H. cbn [bind] in H. apply tabulate_shape in H. exact H. Qed.

  (** the list of repeats does not depend on the tensor *)
  Lemma reps_loop keep todo : forall done x y rs,
    foldM (fun '(x, repeats) '(p, l) =>
               let* x := note (snd x) (t_expand_dims (fst x) p) in
               let* repeats := list_upd repeats p l in
               Ok (x, repeats)) (added_from old len (length done) todo) (x : logged A, reps old len keep done ++ repeat keep (length todo)) = Ok (y, rs) ->
    rs = reps old len keep (done ++ todo).
  Proof.
    induction todo as [|a todo IH]; intros done x y rs H.
    - cbn in H. injection H as _ <-. rewrite !app_nil_r. reflexivity.
    - unfold added_from in H. cbn [enumerate_from filter] in H. replace (done ++ a :: todo) with ((done ++ [a]) ++ todo) by (rewrite <- app_assoc; reflexivity).
      assert (EL : S (length done) = length (done ++ [a])) by (rewrite app_length; cbn; lia).
      destruct (old a) eqn:E; cbn [negb] in H.
      + rewrite EL in H. apply (IH (done ++ [a]) x y). unfold added_from. rewrite <- H. f_equal. f_equal. unfold reps. rewrite map_app, <- app_assoc. cbn [map app length repeat]. rewrite E. reflexivity.
      + cbn [map foldM] in H. apply bind_Ok in H as [[x1 s1] [H1 H2]]. apply bind_Ok in H1 as [x2 [_ H1]]. apply bind_Ok in H1 as [rs2 [Hu H1]]. injection H1 as <- <-.
        replace (length done) with (length (reps old len keep done)) in Hu by (unfold reps; apply map_length). cbn [length repeat] in Hu. rewrite list_upd_mid in Hu. injection Hu as <-.
        rewrite EL in H2. apply (IH (done ++ [a]) x2 y). unfold added_from. rewrite <- H2. f_equal. f_equal. unfold reps. rewrite map_app, <- app_assoc. cbn [map app]. rewrite E. reflexivity.
  Qed.
  Lemma add_made x y ns : shp (fst x) = map len (filter old ns) ->
    b_add_axes (logged_backend r) x (length ns) (added_from old len 0 ns) = Ok y ->
    shp (fst y) = map len ns /\ made x (growing 0 [] ns ++ [map len ns]) y.
  Proof.
    intros Hs. assert (G : forall keep spread, (forall t y, shp t = with_ones old len ns -> spread t (reps old len keep ns) = Ok y -> shp y = map len ns) ->
      logged_add_axes keep spread x (length ns) (added_from old len 0 ns) = Ok y -> shp (fst y) = map len ns /\ made x (growing 0 [] ns ++ [map len ns]) y).
    { intros keep spread Hsp H. unfold logged_add_axes in H. apply bind_Ok in H as [[x1 rs] [H1 H2]].
      pose proof (reps_loop keep ns [] x x1 rs H1) as ->. cbn [app] in H2.
      apply (grow_made _ ) with (done := []) in H1 as [E1 E2]; [|clear; intros x s p l y s' H; apply bind_Ok in H as [x2 [H0 H]]; apply bind_Ok in H as [s2 [_ H]]; injection H as <- _; exact H0|exact Hs].
      pose proof (made_note _ _ _ H2) as Hm. apply note_Ok in H2 as [H2 _]. apply Hsp in H2; [|exact E1]. rewrite H2 in Hm. split; [exact H2|]. eapply made_app; eassumption. }
    assert (HT : forall t y : tensor A, shp t = with_ones old len ns -> t_tile t (reps old len 1 ns) = Ok y -> shp y = map len ns).
    { intros t y0 Ht H. unfold t_tile in H. destruct (_ && _); [|discriminate]. apply tabulate_shape in H. rewrite H, Ht. apply tile_shape_reps. }
    assert (HE : forall t y : tensor A, shp t = with_ones old len ns -> t_expand t (reps old len (-1) ns) = Ok y -> shp y = map len ns).
    { intros t y0 Ht H. apply (expand_spread t (reps old len (-1) ns)); [|exact H]. rewrite Ht. apply expand_shape_reps. }
    unfold logged_backend. destruct (rt_framework r); cbn [b_add_axes logged_with]; apply G; auto.
  Qed.

  (** ** A whole call *)
  Lemma kept_old : kept gl gr = filter old (concat gr).
  Proof. reflexivity. Qed.
  Lemma fresh_from : fresh_axes gl gr = filter (fun '(_, a) => negb (old a)) (enumerate_from 0 (concat gr)).
  Proof. reflexivity. Qed.
  Lemma order_left a : In a (kept gl gr ++ missing gl gr) -> In a (concat gl).
  Proof.
    intros H. apply in_app_or in H as [H|H]; apply filter_In in H as [H1 H2]; [|exact H1]. apply existsb_exists in H2 as (b & Hb & E). apply label_eqb_eq in E. subst b. exact Hb.
  Qed.
  Lemma singles_shape gs : singles gs = true -> gshape len gs = map len (concat gs).
  Proof.
    intros H. apply gshape_single. apply Forall_forall. intros g Hg. unfold singles in H. rewrite forallb_forall in H. apply Nat.eqb_eq, H, Hg.
  Qed.

  Lemma all_made (op : pystr) x y : shp (fst x) = gshape len gl -> foldM (perform (logged_backend r) (RStr op)) (lib_calls gl gr len) x = Ok y ->
    made x (shapes_made (manner_of (rt_framework r) op) gl gr len) y.
  Proof.
    intros Hs H. unfold lib_calls in H. unfold shapes_made. rewrite foldM_app in H. apply bind_Ok in H as [x1 [H1 H]].
    assert (M1 : shp (fst x1) = map len (concat gl) /\ made x (if singles gl then [] else [map len (concat gl)]) x1).
    { destruct (singles gl) eqn:E; [cbn in H1; injection H1 as <-; rewrite Hs; split; [apply singles_shape, E|apply made_nil]|].
      rewrite foldM_one in H1. cbn [perform] in H1. rewrite lb_reshape in H1. pose proof (made_note _ _ _ H1) as Hm. apply note_Ok in H1 as [H1 _]. apply reshape_shape in H1. rewrite H1 in Hm. auto. }
    destruct M1 as [S1 M1]. eapply made_app; [exact M1|]. clear M1 H1. rewrite foldM_app in H. apply bind_Ok in H as [x2 [H1 H]].
    assert (M2 : shp (fst x2) = map len (kept gl gr ++ missing gl gr) /\ made x1 (if list_eq_dec label_eq_dec (kept gl gr ++ missing gl gr) (concat gl) then [] else [map len (kept gl gr ++ missing gl gr)]) x2).
    { destruct (list_eq_dec label_eq_dec _ _) as [E|E]; [cbn in H1; injection H1 as <-; rewrite E; split; [exact S1|apply made_nil]|].
      rewrite foldM_one in H1. cbn [perform] in H1. rewrite lb_transpose in H1. pose proof (made_note _ _ _ H1) as Hm. apply note_Ok in H1 as [H1 _]. apply transpose_shape in H1.
      rewrite map_map, S1 in H1. assert (E1 : shp (fst x2) = map len (kept gl gr ++ missing gl gr)) by (rewrite H1; apply map_ext_in; intros a Ha; apply nth_place, order_left, Ha).
      rewrite E1 in Hm. auto. }
    destruct M2 as [S2 M2]. eapply made_app; [exact M2|]. clear M2 H1. rewrite foldM_app in H. apply bind_Ok in H as [x3 [H1 H]].
    assert (M3 : shp (fst x3) = map len (kept gl gr) /\ made x2 (match missing gl gr with [] => [] | _ => reductions_made (manner_of (rt_framework r) op) (map len (kept gl gr)) (map len (missing gl gr)) end) x3).
    { rewrite map_app in S2. destruct (missing gl gr) as [|g gs] eqn:Em; [cbn in H1; injection H1 as <-; cbn in S2; rewrite app_nil_r in S2; split; [exact S2|apply made_nil]|].
      rewrite foldM_one in H1. cbn [perform reduce_axes] in H1. apply bind_Ok in H1 as [[] [_ H1]]. apply bind_Ok in H1 as [[] [_ H1]].
      rewrite <- (map_length len (kept gl gr)), <- (map_length len (g :: gs)) in H1. apply reduce_made in H1; [exact H1|discriminate|exact S2]. }
    destruct M3 as [S3 M3].
    assert (E3 : match missing gl gr with [] => [] | _ => reductions_made (manner_of (rt_framework r) op) (map len (kept gl gr)) (map len (missing gl gr)) end =
      match missing gl gr with [] => []
      | gone => match manner_of (rt_framework r) op with
         | Together => [map len (kept gl gr)]
         | One_by_one => map (fun k => map len (kept gl gr ++ firstn k gone)) (rev (seq 0 (length gone)))
         | Squeezing => (match kept gl gr with [] => [[1]] | _ => [] end) ++ [map len (kept gl gr)]
         end end).
    { destruct (missing gl gr) as [|g gs]; [reflexivity|]. unfold reductions_made. destruct (manner_of _ _); [reflexivity| |destruct (kept gl gr); reflexivity].
      rewrite map_length. apply map_ext. intros k. rewrite map_app, firstn_map. reflexivity. }
    rewrite E3 in M3. eapply made_app; [exact M3|]. clear M3 E3 H1. rewrite foldM_app in H. apply bind_Ok in H as [x4 [H1 H]].
    assert (M4 : shp (fst x4) = map len (concat gr) /\ made x3 (match fresh_axes gl gr with [] => [] | _ => growing 0 [] (concat gr) ++ [map len (concat gr)] end) x4).
    { destruct (fresh_axes gl gr) as [|n ns] eqn:Ef.
      - cbn in H1. injection H1 as <-. split; [|apply made_nil]. rewrite S3, kept_old. f_equal. rewrite fresh_from in Ef. clear -Ef. revert Ef. generalize 0. induction (concat gr) as [|a l IH]; intros k; [reflexivity|].
        cbn [enumerate_from filter]. destruct (old a); cbn [negb]; [|discriminate]. intros H. f_equal. eapply IH, H.
      - rewrite foldM_one in H1. cbn [perform] in H1. apply add_made; [exact S3|]. rewrite <- H1. f_equal. unfold added_from. rewrite <- fresh_from, Ef, map_map. apply map_ext. intros [i a]. reflexivity. }
    destruct M4 as [S4 M4].
    assert (E4 : growing 0 [] (concat gr) = map (fun '(i, _) => map (fun a => if old a then len a else 1) (firstn (S i) (concat gr)) ++ map len (filter old (skipn (S i) (concat gr)))) (fresh_axes gl gr)) by reflexivity.
    rewrite E4 in M4. eapply made_app.
    { destruct (fresh_axes gl gr) as [|n ns]; exact M4. }
    destruct (singles gr); [cbn in H; injection H as <-; apply made_nil|]. rewrite foldM_one in H. cbn [perform] in H. rewrite lb_reshape in H. pose proof (made_note _ _ _ H) as Hm. apply note_Ok in H as [H _]. apply reshape_shape in H. rewrite H in Hm. exact Hm.
  Qed.
End Shapes.

Section ArrayApi.
  Context {A : Type} (r : runtime A) (gl gr : list (list label)) (len : label -> nat).
  Notation old := (is_old gl).
  Lemma all_made_xp (op : pystr) x y : shp (fst x) = gshape len gl -> foldM (perform_xp (logged_ns r) (RStr op)) (lib_calls gl gr len) x = Ok y ->
    made x (shapes_made Together gl gr len) y.
  Proof.
    intros Hs H. unfold lib_calls in H. unfold shapes_made. rewrite foldM_app in H. apply bind_Ok in H as [x1 [H1 H]].
    assert (M1 : shp (fst x1) = map len (concat gl) /\ made x (if singles gl then [] else [map len (concat gl)]) x1).
    { destruct (singles gl) eqn:E; [cbn in H1; injection H1 as <-; rewrite Hs; split; [apply singles_shape, E|apply made_nil]|].
      rewrite foldM_one in H1. cbn [perform_xp logged_ns xp_reshape] in H1. pose proof (made_note _ _ _ H1) as Hm. apply note_Ok in H1 as [H1 _]. apply reshape_shape in H1. rewrite H1 in Hm. auto. }
    destruct M1 as [S1 M1]. eapply made_app; [exact M1|]. clear M1 H1. rewrite foldM_app in H. apply bind_Ok in H as [x2 [H1 H]].
    assert (M2 : shp (fst x2) = map len (kept gl gr ++ missing gl gr) /\ made x1 (if list_eq_dec label_eq_dec (kept gl gr ++ missing gl gr) (concat gl) then [] else [map len (kept gl gr ++ missing gl gr)]) x2).
    { destruct (list_eq_dec label_eq_dec _ _) as [E|E]; [cbn in H1; injection H1 as <-; rewrite E; split; [exact S1|apply made_nil]|].
      rewrite foldM_one in H1. cbn [perform_xp logged_ns xp_permute_dims] in H1. pose proof (made_note _ _ _ H1) as Hm. apply note_Ok in H1 as [H1 _]. apply transpose_shape in H1.
      rewrite map_map, S1 in H1. assert (E1 : shp (fst x2) = map len (kept gl gr ++ missing gl gr)) by (rewrite H1; apply map_ext_in; intros a Ha; apply nth_place; exact (order_left gl gr a Ha)).
      rewrite E1 in Hm. auto. }
    destruct M2 as [S2 M2]. eapply made_app; [exact M2|]. clear M2 H1. rewrite foldM_app in H. apply bind_Ok in H as [x3 [H1 H]].
    assert (M3 : shp (fst x3) = map len (kept gl gr) /\ made x2 (match missing gl gr with [] => [] | _ => [map len (kept gl gr)] end) x3).
    { rewrite map_app in S2. destruct (missing gl gr) as [|g gs] eqn:Em; [cbn in H1; injection H1 as <-; cbn in S2; rewrite app_nil_r in S2; split; [exact S2|apply made_nil]|].
      rewrite foldM_one in H1. cbn [perform_xp logged_ns xp_reduce] in H1. destruct (str_mem op reductions); [|discriminate].
      rewrite <- (map_length len (kept gl gr)), <- (map_length len (g :: gs)) in H1. apply joint_made in H1; [exact H1|exact S2]. }
    destruct M3 as [S3 M3]. eapply made_app; [destruct (missing gl gr); exact M3|]. clear M3 H1. rewrite foldM_app in H. apply bind_Ok in H as [x4 [H1 H]].
    assert (M4 : shp (fst x4) = map len (concat gr) /\ made x3 (match fresh_axes gl gr with [] => [] | _ => growing gl len 0 [] (concat gr) ++ [map len (concat gr)] end) x4).
    { destruct (fresh_axes gl gr) as [|n ns] eqn:Ef.
      - cbn in H1. injection H1 as <-. split; [|apply made_nil]. rewrite S3, kept_old. f_equal. rewrite fresh_from in Ef. clear -Ef. revert Ef. generalize 0. induction (concat gr) as [|a l IH]; intros k; [reflexivity|].
        cbn [enumerate_from filter]. destruct (old a); cbn [negb]; [|discriminate]. intros H. f_equal. eapply IH, H.
      - rewrite foldM_one in H1. cbn [perform_xp] in H1. apply bind_Ok in H1 as [x' [H1 H2]]. apply bind_Ok in H2 as [s [H2 H3]].
        assert (EL : map (fun '(i, k) => (i, Z.of_nat k)) (map (fun '(i, a) => (i, len a)) (n :: ns)) = added_from old len 0 (concat gr)).
        { unfold added_from. rewrite <- fresh_from, Ef, map_map. apply map_ext. intros [i a]. reflexivity. }
        assert (G1 : foldM (fun '(x, u) '(p, _) => let* x := note (snd x) (t_expand_dims (fst x) p) in Ok (x, u)) (added_from old len 0 (concat gr)) (x3, tt) = Ok (x', tt)).
        { rewrite <- EL, foldM_map. revert H1. generalize (map (fun '(i, a) => (i, len a)) (n :: ns)). generalize x3 as u. clear. intros u l. revert u. induction l as [|[i k] l IH]; intros u H; cbn [foldM] in *; [injection H as ->; reflexivity|].
          cbn [logged_ns xp_expand_dims] in H. destruct (note (snd u) (t_expand_dims (fst u) i)) as [u'|]; [|discriminate]. cbn [bind] in *. apply IH, H. }
        apply (grow_made gl len) with (done := []) in G1 as [E1 E2]; [|clear; intros x s p l y s' H; apply bind_Ok in H as [x2 [H0 H]]; injection H as <- _; exact H0|exact S3].
        cbn [app] in E1.
        assert (G2 : s = map (fun a => Z.of_nat (len a)) (concat gr)).
        { pose proof (aa_upd_loop old len (concat gr) []) as L. cbn [length app map] in L. rewrite <- EL, foldM_map in L.
          assert (X : forall l (u : list Z), foldM (fun (a : list Z) (c : nat * nat) => let '(p, l0) := let '(i, k) := c in (i, Z.of_nat k) in list_upd a p l0) l u = foldM (fun s '(i, k) => list_upd s i (Z.of_nat k)) l u).
          { induction l as [|[i k] l IH]; intros u; cbn [foldM]; [reflexivity|]. destruct (list_upd u i (Z.of_nat k)); [apply IH|reflexivity]. }
          rewrite X in L. change (xp_shape (logged_ns r) x') with (map Z.of_nat (shp (fst x'))) in H2. rewrite E1, L in H2. injection H2 as <-. reflexivity. }
        subst s. cbn [logged_ns xp_broadcast_to] in H3. pose proof (made_note _ _ _ H3) as Hm. apply note_Ok in H3 as [H3 _].
        unfold t_broadcast_to in H3. destruct (all_nonneg _); [|discriminate]. apply (expand_spread _ _ (map len (concat gr))) in H3; [|rewrite E1; apply expand_shape_lens].
        rewrite H3 in Hm. split; [exact H3|]. eapply made_app; eassumption. }
    destruct M4 as [S4 M4].
    assert (E4 : growing gl len 0 [] (concat gr) = map (fun '(i, _) => map (fun a => if old a then len a else 1) (firstn (S i) (concat gr)) ++ map len (filter old (skipn (S i) (concat gr)))) (fresh_axes gl gr)) by reflexivity.
    rewrite E4 in M4. eapply made_app.
    { destruct (fresh_axes gl gr) as [|n ns]; exact M4. }
    destruct (singles gr); [cbn in H; injection H as <-; apply made_nil|]. rewrite foldM_one in H. cbn [perform_xp logged_ns xp_reshape] in H. pose proof (made_note _ _ _ H) as Hm. apply note_Ok in H as [H _]. apply reshape_shape in H. rewrite H in Hm. exact Hm.
  Qed.
End ArrayApi.

Section Calls.
  Context {A : Type} (r : runtime A) (Hr : runtime_ok r).
  Context (pattern : pystr) (sizes : list (pystr * Z)) (sh : list nat) (w : role) (L R : expr) (e : nat) (len : label -> nat) (op : pystr).
  Context (Hns : NoDup (map fst sizes)) (Hres : no_reserved sizes) (Hok : call_ok (rt_unicode r) w pattern sizes sh L R e len) (Hw : @runs_as (logged A) (RStr op) w).
  Notation gl := (left_groups e L).
  Notation gr := (right_groups e L R).
  Lemma shapes_known x y log : input_shape sh x -> logged_reduce r (fresh x) pattern (RStr op) sizes = Ok (y, log) ->
    rev log = stacked sh x ++ shapes_made (manner_of (rt_framework r) op) gl gr len.
  Proof.
    destruct Hr as [HU Ho].
    assert (G : forall z, shp (fst z) = sh -> logged_reduce r (One z) pattern (RStr op) sizes = Ok (y, log) -> rev log = rev (snd z) ++ shapes_made (manner_of (rt_framework r) op) gl gr len).
    { intros z Hz H. unfold logged_reduce in H. rewrite (api_runs (rt_unicode r) HU (rt_orders r) Ho pattern sizes sh w L R e len Hns Hres Hok) in H; [|apply Hw|rewrite lb_shape, Hz; reflexivity].
      apply all_made in H; [|rewrite Hz; symmetry; apply (co_fits _ _ _ _ _ _ _ _ _ Hok)]. unfold made in H. cbn [snd] in H. rewrite H, rev_app_distr, rev_involutive. reflexivity. }
    intros Hx H. destruct x as [t|ts]; cbn [fresh stacked] in *; [apply (G (t, [])); auto|].
    destruct Hx as (s & Es & Hs). unfold logged_reduce, api_reduce in H. apply bind_Ok in H as [u [Hk H]]. apply bind_Ok in H as [z [Hz H]].
    assert (Z1 : note (logs (map (fun t => (t, [])) ts)) (t_stack (map fst (map (fun t : tensor A => (t, @nil (list nat))) ts))) = Ok z).
    { destruct ts as [|t ts]; [discriminate|]. cbn [map stack_input] in Hz. rewrite <- Hz. unfold logged_backend. destruct (rt_framework r); reflexivity. }
    apply note_Ok in Z1 as [Z1 Z2]. rewrite map_map in Z1. cbn [fst] in Z1. rewrite map_id in Z1.
    assert (Z3 : shp (fst z) = sh).
    { unfold t_stack in Z1. destruct ts as [|t0 ts]; [discriminate|]. destruct (forallb _ _); [|discriminate]. injection Z1 as <-. cbn [shp]. rewrite Es, (Hs t0 (or_introl eq_refl)). reflexivity. }
    assert (Z4 : logs (map (fun t : tensor A => (t, @nil (list nat))) ts) = []) by (clear; unfold logs; induction ts; [reflexivity|exact IHts]).
    rewrite Z4, Z3 in Z2. rewrite (G z Z3); [rewrite Z2; reflexivity|]. unfold logged_reduce, api_reduce. rewrite Hk. cbn [bind stack_input]. exact H.
  Qed.
  Lemma shapes_known_xp x y log : input_shape sh x -> logged_xp_reduce r (fresh x) pattern (RStr op) sizes = Ok (y, log) ->
    rev log = stacked sh x ++ shapes_made Together gl gr len.
  Proof.
    destruct Hr as [HU Ho].
    assert (G : forall z, shp (fst z) = sh -> logged_xp_reduce r (One z) pattern (RStr op) sizes = Ok (y, log) -> rev log = rev (snd z) ++ shapes_made Together gl gr len).
    { intros z Hz H. unfold logged_xp_reduce in H. rewrite (xp_runs (rt_unicode r) HU (rt_orders r) Ho pattern sizes sh w L R e len Hns Hres Hok) in H; [|apply Hw|rewrite <- Hz; reflexivity].
      apply all_made_xp in H; [|rewrite Hz; symmetry; apply (co_fits _ _ _ _ _ _ _ _ _ Hok)]. unfold made in H. cbn [snd] in H. rewrite H, rev_app_distr, rev_involutive. reflexivity. }
    intros Hx H. destruct x as [t|ts]; cbn [fresh stacked] in *; [apply (G (t, [])); auto|].
    destruct Hx as (s & Es & Hs). unfold logged_xp_reduce, aa_reduce in H. apply bind_Ok in H as [u [Hk H]]. apply bind_Ok in H as [z [Hz H]].
    assert (Z1 : note (logs (map (fun t => (t, [])) ts)) (t_stack (map fst (map (fun t : tensor A => (t, @nil (list nat))) ts))) = Ok z).
    { destruct ts as [|t ts]; [discriminate|]. exact Hz. }
    apply note_Ok in Z1 as [Z1 Z2]. rewrite map_map in Z1. cbn [fst] in Z1. rewrite map_id in Z1.
    assert (Z3 : shp (fst z) = sh).
    { unfold t_stack in Z1. destruct ts as [|t0 ts]; [discriminate|]. destruct (forallb _ _); [|discriminate]. injection Z1 as <-. cbn [shp]. rewrite Es, (Hs t0 (or_introl eq_refl)). reflexivity. }
    assert (Z4 : logs (map (fun t : tensor A => (t, @nil (list nat))) ts) = []) by (clear; unfold logs; induction ts; [reflexivity|exact IHts]).
    rewrite Z4, Z3 in Z2. rewrite (G z Z3); [rewrite Z2; reflexivity|]. unfold logged_xp_reduce, aa_reduce. rewrite Hk. cbn [bind stack_input_array_api]. exact H.
  Qed.
End Calls.

Section Pieces.
  Context {A : Type} (r : runtime A).
  Lemma reshape_size lib (t : tensor A) s y : t_reshape lib t s = Ok y -> size y = size t.
  Proof.
    unfold t_reshape. intros H. apply bind_Ok in H as [s' [H1 H]]. injection H as <-. unfold size. cbn [shp]. apply resolve_prod in H1. exact H1.
  Qed.
  Lemma pack_shapes (ts : list (tensor A)) pattern (y : tensor A) log shapes : logged_pack r (map (fun t => (t, [])) ts) pattern = Ok ((y, log), shapes) ->
    exists ss, log = shp y :: ss /\ Forall2 (fun t s => prodn s = size t) ts ss.
  Proof.
    unfold logged_pack, pack_with, pack_given. intros H. apply bind_Ok in H as [[[before after] mn] [_ H]]. apply bind_Ok in H as [? [_ H]].
    apply bind_Ok in H as [[reshaped shapes'] [H1 H]]. apply bind_Ok in H as [t [H2 H]]. injection H as -> ->.
    assert (H3 : note (logs reshaped) (t_concat (map fst reshaped) before) = Ok (y, log)) by (transitivity (b_concat (logged_backend r) reshaped before); [unfold logged_backend; destruct (rt_framework r); reflexivity|exact H2]).
    apply note_Ok in H3 as [_ H3]. cbn [fst snd] in H3. exists (logs reshaped). split; [exact H3|]. clear H2 H3.
    assert (G : forall l acc sh out shs, foldM (fun '(reshaped, packed_shapes) tensor =>
        let shape := b_shape (logged_backend r) tensor in let* _ := raise_if (length shape <? mn) EinopsError in
        let* t := b_reshape (logged_backend r) tensor (firstn before shape ++ [(-1)%Z] ++ skipn (length shape - after) shape) in
        Ok (reshaped ++ [t], packed_shapes ++ [skipn before (firstn (length shape - after) shape)])) (map (fun t => (t, [])) l) (acc, sh) = Ok (out, shs) ->
      exists ss, logs out = logs acc ++ ss /\ Forall2 (fun (t : tensor A) s => prodn s = size t) l ss).
    { induction l as [|a l IH]; intros acc sh out shs F; cbn [map foldM] in F; [injection F as <- <-; exists []; split; [symmetry; apply app_nil_r|constructor]|]. cbv zeta in F.
      apply bind_Ok in F as [[acc' sh'] [F1 F2]]. apply bind_Ok in F1 as [? [_ F1]]. apply bind_Ok in F1 as [t [F1 F3]]. injection F3 as <- <-.
      destruct (IH _ _ _ _ F2) as (ss & E1 & E2). rewrite lb_reshape in F1. apply note_Ok in F1 as [F1 F3]. cbn [fst snd] in F1, F3.
      exists (shp (fst t) :: ss). split; [|constructor; [apply reshape_size in F1; exact F1|exact E2]].
      rewrite E1. unfold logs. rewrite flat_map_app. cbn [flat_map]. rewrite F3. cbn [app]. rewrite <- app_assoc. reflexivity. }
    destruct (G _ _ _ _ _ H1) as (ss & E1 & E2). rewrite E1. exact E2.
  Qed.
  Lemma unpack_shapes (x : tensor A) shapes pattern ys : logged_unpack r (x, []) shapes pattern = Ok ys ->
    length ys = length shapes /\ forall (y : tensor A) log, In (y, log) ys -> exists s, log = [shp y; s] /\ prodn s = size y.
  Proof.
    unfold logged_unpack, unpack_with, unpack_given. intros H. apply bind_Ok in H as [[[before after] mn] [_ H]]. apply bind_Ok in H as [? [_ H]]. apply bind_Ok in H as [? [_ H]].
    apply bind_Ok in H as [n [_ H]]. apply bind_Ok in H as [sp [_ H]]. destruct (mapM _ (enumerate shapes)) as [ts|] eqn:E; [|discriminate]. injection H as ->.
    split. { apply mapM_Ok_Forall2 in E. apply (Forall2_length _ _ _) in E. rewrite <- E. clear. unfold enumerate. generalize 0. induction shapes as [|s l IH]; intros k; [reflexivity|]. cbn [enumerate_from length]. f_equal. apply IH. }
    intros y log Hy.
    destruct (mapM_from _ _ _ _ E Hy) as ([i sh] & _ & F). apply bind_Ok in F as [a [_ F]]. apply bind_Ok in F as [b [_ F]]. apply bind_Ok in F as [piece [F1 F2]].
    assert (F3 : note [] (t_slice x before a b) = Ok piece) by (transitivity (b_slice (logged_backend r) (x, []) before a b); [unfold logged_backend; destruct (rt_framework r); reflexivity|exact F1]).
    apply note_Ok in F3 as [_ F3]. rewrite lb_reshape in F2. apply note_Ok in F2 as [F2 F4]. cbn [fst snd] in *. exists (shp (fst piece)). split; [congruence|]. apply reshape_size in F2. symmetry. exact F2.
  Qed.
End Pieces.
