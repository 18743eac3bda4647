(** * Facts: messages about lengths are true; no message comes from elsewhere *)
From Verif Require Import Py Tensor ListFacts SpecSem SpecGrammar SpecPattern SpecOps Parsing Compile Recipe Ops Backends ParseFacts ParseFacts2 ParseFacts3
  RecipeFacts InferFacts ApplyFacts FrontFacts FrontFacts2 FrontFacts3 MainFacts MainFacts2 ApiFacts2 Texts Messages SpecMessages MessageFacts MessageFacts2 MessageFacts3.

Lemma foldO_Wrong {A B} (f : A -> B -> outcome A) (Inv : A -> Prop) l acc m :
  (forall st x st', In x l -> Inv st -> f st x = Fine st' -> Inv st') -> Inv acc ->
  foldO f l acc = Wrong m -> exists st x, In x l /\ Inv st /\ f st x = Wrong m.
Proof.
  revert acc. induction l as [|b l IH]; intros acc Hs Ha H; cbn [foldO] in H; [discriminate|].
  apply then_Wrong in H as [H|[st [H0 H]]]; [exists acc, b; split; [left; reflexivity|auto]|].
  destruct (IH st) as (st' & x & Hx & Hi & E); [intros; eapply Hs; [right|..]; eauto|apply (Hs acc b); [left; reflexivity|auto|auto]|exact H|].
  exists st', x. split; [right; exact Hx|auto].
Qed.

Lemma enumerate_at {B} (l : list B) i b : In (i, b) (enumerate l) -> nth_error l i = Some b.
Proof.
  unfold enumerate. assert (G : forall l k, In (i, b) (enumerate_from k l) -> k <= i /\ nth_error l (i - k) = Some b).
  { clear l. induction l as [|c l IH]; intros k H; [destruct H|]. cbn [enumerate_from] in H. destruct H as [H|H].
    - inversion H; subst. rewrite Nat.sub_diag. split; [lia|reflexivity].
    - apply IH in H as [H1 H2]. split; [lia|]. replace (i - k) with (S (i - S k)) by lia. exact H2. }
  intros H. apply G in H as [_ H]. rewrite Nat.sub_0_r in H. exact H.
Qed.

Lemma clean_get {A} (l : list A) i : clean (list_get l i).
Proof. apply clean_option. discriminate. Qed.
Lemma clean_upd {A} (l : list A) i x : clean (list_upd l i x).
Proof.
  revert i. induction l as [|a l IH]; intros [|i]; cbn [list_upd]; try discriminate. apply clean_bind; [apply IH|intros; apply clean_Ok].
Qed.

Lemma raw_wrong shape al need i known unknown m : infer_step_msg int_ops shape (al, need) (i, (known, unknown)) = Wrong m ->
  exists len vals, nth_error shape i = Some len /\ mapM (list_get al) known = Ok vals /\
    let kp := fold_left Z.mul vals 1%Z in
    (unknown = [] /\ m = Mismatch len kp /\ len <> kp) \/
    (exists u r, unknown = u :: r /\ m = CannotDivide len kp /\ kp <> 0%Z /\ (len mod kp <> 0)%Z).
Proof.
  unfold infer_step_msg. intros H. apply then_Wrong in H as [H|[len [Hl H]]]; [exfalso; exact (clean_lift _ _ (clean_get _ _) H)|].
  apply plain_Fine in Hl. rewrite plain_lift in Hl. apply list_get_Ok in Hl. exists len.
  assert (G : (let! vals := lift (mapM (list_get al) known) in
        let! al' :=
          match unknown with
          | [] => if (len =? fold_left Z.mul vals 1)%Z then Fine al else Wrong (Mismatch len (fold_left Z.mul vals 1%Z))
          | u :: _ =>
              let! _ := if (fold_left Z.mul vals 1 =? 0)%Z then Fails ZeroDivisionError
                        else wrong_if (negb (len mod fold_left Z.mul vals 1 =? 0)%Z) (CannotDivide len (fold_left Z.mul vals 1%Z)) in
              let! q := lift (d_floordiv int_ops len (fold_left Z.mul vals 1%Z)) in
              lift (list_upd al u q)
          end in
        Fine (al', if length known + length unknown =? 1 then need else true)) = Wrong m).
  { destruct known as [|k0 ks], unknown as [|u0 [|u1 r]]; try exact H. exfalso. apply then_Wrong in H as [H|[? [_ H]]]; [|discriminate].
    exact (clean_lift _ _ (clean_upd _ _ _) H). }
  clear H. apply then_Wrong in G as [H|[vals [Hv H]]]; [exfalso; exact (clean_lift _ _ (clean_mapM _ _ (clean_get al)) H)|].
  apply plain_Fine in Hv. rewrite plain_lift in Hv. exists vals. split; [exact Hl|]. split; [exact Hv|]. cbv zeta. set (kp := fold_left Z.mul vals 1%Z) in *.
  apply then_Wrong in H as [H|[? [_ H]]]; [|discriminate]. destruct unknown as [|u r].
  - left. destruct (len =? kp)%Z eqn:E; [discriminate|]. apply Z.eqb_neq in E. inversion H; auto.
  - right. exists u, r. split; [reflexivity|]. apply then_Wrong in H as [H|[[] [_ H]]].
    + destruct (kp =? 0)%Z eqn:E; [discriminate|]. apply Z.eqb_neq in E. apply if_Wrong in H as [H ->]. apply negb_true_iff, Z.eqb_neq in H. auto.
    + exfalso. apply then_Wrong in H as [H|[? [_ H]]]; [|exact (clean_lift _ _ (clean_upd _ _ _) H)].
      refine (clean_lift _ _ _ H). cbn [d_floordiv int_ops]. destruct (kp =? 0)%Z; discriminate.
Qed.

Section Lengths.
  Context (o : orders) (Ho : orders_ok o) (names : list pystr) (l : list axis) (Hnd : NoDup l) (e0 : axis -> Z).
  Notation ks g := (filter (is_known names) g).
  Notation us g := (filter (fun a => negb (is_known names a)) g).
  Notation spot g := (map (pos_in l) (o 1 (ks g)), map (pos_in l) (us g)).

  Definition keeps (st : list Z * bool) : Prop := exists env, fst st = map env l /\ forall a, is_known names a = true -> env a = e0 a.

  Lemma step_keeps shape st i g len st' : incl g l -> length (us g) <= 1 -> nth_error shape i = Some len -> keeps st ->
    infer_step_msg int_ops shape st (i, spot g) = Fine st' -> keeps st'.
  Proof.
    intros Hi Hu Hn [env [E1 E2]] H. destruct st as [al need]. cbn [fst] in E1. subst al.
    apply plain_Fine in H. rewrite plain_infer, (infer_step_ref o names l shape env need i len g Ho Hnd Hi Hu Hn) in H.
    apply bind_Ok in H as [[env' need'] [H1 H2]]. inversion H2; subst st'. clear H2. exists env'. split; [reflexivity|].
    assert (Hup : forall u z a, In u (us g) -> is_known names a = true -> upd env u z a = e0 a).
    { intros u z a Hin Ha. unfold upd. destruct (axis_eqb u a) eqn:E; [|apply E2; exact Ha]. apply axis_eqb_eq in E. subst u.
      apply filter_In in Hin as [_ Hin]. rewrite Ha in Hin. discriminate. }
    unfold ref_step in H1. destruct (us g) as [|u [|u' us']] eqn:Eus; [| |cbn in Hu; lia].
    - assert (G : env' = env); [|subst; exact E2].
      destruct (ks g); apply bind_Ok in H1 as [x [H1 H2]]; inversion H2; subst; match type of H1 with context [if ?c then _ else _] => destruct c end; inversion H1; reflexivity.
    - assert (G : exists z, env' = upd env u z); [|destruct G as [z ->]; intros a Ha; apply Hup; [left; reflexivity|exact Ha]].
      destruct (ks g); [inversion H1; eauto|]. apply bind_Ok in H1 as [x [H1 H2]]; inversion H2; subst.
      repeat match type of H1 with context [if ?c then _ else _] => destruct c end; inversion H1; eauto.
  Qed.

  Lemma step_wrong shape st i g len m : incl g l -> length (us g) <= 1 -> nth_error shape i = Some len -> keeps st ->
    infer_step_msg int_ops shape st (i, spot g) = Wrong m ->
    let kp := prodZ (map e0 (ks g)) in
    (us g = [] /\ m = Mismatch len kp /\ len <> kp) \/ (exists u, us g = [u] /\ m = CannotDivide len kp /\ ~ (kp | len)%Z).
  Proof.
    intros Hi Hu Hn [env [E1 E2]] H kp. destruct st as [al need]. cbn [fst] in E1. subst al.
    assert (Hks : incl (ks g) l) by (intros a Ha; apply filter_In in Ha as [Ha _]; auto).
    pose proof (Ho 1 (ks g)) as Hp.
    assert (Hm : mapM (list_get (map env l)) (map (pos_in l) (o 1 (ks g))) = Ok (map env (o 1 (ks g)))).
    { rewrite mapM_map. apply mapM_total. intros a Ha. apply list_get_map. apply Hks. eapply Permutation_in; eauto. }
    assert (Hkp : fold_left Z.mul (map env (o 1 (ks g))) 1%Z = kp).
    { rewrite fold_left_mul, Z.mul_1_l. unfold kp. rewrite (prodZ_perm (map env (o 1 (ks g))) (map env (ks g)) (Permutation_map env Hp)).
      f_equal. apply map_ext_in. intros a Ha. apply E2. apply filter_In in Ha. tauto. }
    apply raw_wrong in H as (len' & vals & Hl & Hv & H). rewrite Hm in Hv. inversion Hv; subst vals. clear Hv. assert (len' = len) by congruence. subst len'.
    cbv zeta in H. rewrite Hkp in H. destruct H as [[H1 [H2 H3]]|(u & r & H1 & H2 & H3 & H4)].
    - left. split; [destruct (us g); [reflexivity|discriminate]|auto].
    - right. destruct (us g) as [|v [|? ?]]; [discriminate| |cbn in Hu; lia]. exists v. split; [reflexivity|]. split; [exact H2|].
      intros Hd. apply H4. apply Z.mod_divide; auto.
  Qed.
End Lengths.

Section Reconstruct.
  Context (U : unicode) (HU : unicode_ok U) (o : orders) (Ho : orders_ok o).

  Lemma reconstruct_true p op sizes shape r m : NoDup (map fst sizes) ->
    prepare_recipe_msg U o p op (map fst sizes) (length shape) = Fine r ->
    reconstruct_msg int_ops r (map Z.of_nat shape) sizes = Wrong m -> true_of_call U p op sizes shape m.
  Proof.
    intros Hnds Hprep H. apply plain_Fine in Hprep. rewrite plain_prepare, prepare_split in Hprep. set (names := map fst sizes) in *.
    apply bind_Ok in Hprep as [x [Hf Hb]]. apply (frontend_iff U p op names (length shape) x HU) in Hf as (L & R & e & w & Hr & _ & _ & Hd & Hng & He & ->).
    rewrite front_value_eq in Hb. pose proof (front_weak U HU p L R e Hr Hd) as Hw. set (lcomp := map (map axis_of) (left_groups e L)) in *.
    set (rcomp := map (map axis_of) (right_groups e L R)) in *.
    rewrite (backend_closed U o names lcomp rcomp (lids_of L e) (rids_of L R e) Ho Hw) in Hb.
    destruct (names_ok U lcomp (rids_of L R e) names) eqn:En; [|discriminate]. destruct (groups_ok names lcomp) eqn:Eg; [|discriminate]. inversion Hb; subst r. clear Hb.
    assert (Hnames : forall s, In s names -> check_axis_name U false s = true /\ (In (AxName s) (concat lcomp) \/ In (AxName s) (rids_of L R e))).
    { intros s Hs. unfold names_ok in En. rewrite forallb_forall in En. specialize (En s Hs). apply andb_true_iff in En as [E1 E2]. split; [exact E1|].
      apply axis_mem_In, in_app_or in E2. exact E2. }
    pose proof Hw as [Hndl Hndr Hndi Hlids Hrids Han].
    pose proof (all_axes_NoDup o lcomp (rids_of L R e) Ho Hndl Hndi) as HndA. pose proof (fun a => all_axes_In o lcomp (rids_of L R e) a Ho) as HinA.
    assert (Hlen : length (map Z.of_nat shape) = length lcomp).
    { unfold lcomp. rewrite !map_length. symmetry. exact (groups_count U p L R e (length shape) Hr Hng He). }
    unfold reconstruct_msg in H. cbn [closed_recipe r_elementary r_name2elem r_input] in H.
    set (all := all_axes o lcomp (rids_of L R e)) in *.
    replace (map (d_of_Z int_ops) (map (mval names) all)) with (map (mval names) all) in H by (symmetry; apply map_id).
    unfold names in H at 1 2. rewrite (sizes_loop all sizes HndA Hnds) in H by (intros s Hs; apply HinA; apply Hnames; exact Hs).
    cbn [lift and_then] in H. apply then_Wrong in H as [H|[[al need] [Hok H]]].
    2:{ exfalso. apply plain_Fine in Hok. rewrite plain_fold in Hok.
        rewrite (foldM_ext' _ (infer_step int_ops (map Z.of_nat shape))) in Hok by (intros; apply plain_infer).
        rewrite (infer_loop_ref o names all (map Z.of_nat shape) lcomp (env0 sizes) false Ho HndA) in Hok; [|intros a Ha; apply HinA; left; exact Ha|exact Eg|exact Hlen].
        apply bind_Ok in Hok as [[env' need'] [Hok _]].
        refine (clean_lift _ _ _ H).
        change (clean (reconstruct int_ops (closed_recipe o (map fst sizes) lcomp rcomp (rids_of L R e)) (map Z.of_nat shape) sizes)).
        rewrite (reconstruct_closed o lcomp rcomp (lids_of L e) (rids_of L R e) (map Z.of_nat shape) sizes Ho Hw Hnds (fun s Hs => proj2 (Hnames s Hs)) Eg Hlen).
        fold names. rewrite Hok. discriminate. }
    apply (foldO_Wrong _ (keeps names all (env0 sizes))) in H.
    - destruct H as (st & [i [kn un]] & Hx & Hst & H). apply enumerate_at in Hx. rewrite nth_error_map in Hx.
      destruct (nth_error lcomp i) as [g|] eqn:Egi; [|discriminate]. inversion Hx; subst kn un. clear Hx.
      assert (Hg : In g lcomp) by (apply (nth_error_In _ i); exact Egi).
      destruct (nth_error (map Z.of_nat shape) i) as [len|] eqn:El; [|apply nth_error_None in El; rewrite Hlen in El; apply nth_error_None in El; congruence].
      apply (step_wrong o Ho names all (env0 sizes) (map Z.of_nat shape) st i g len m) in H; [|intros a Ha; apply HinA; left; apply in_concat; eauto| |exact El|exact Hst].
      2:{ unfold groups_ok in Eg. rewrite forallb_forall in Eg. apply Nat.leb_le. apply Eg. exact Hg. }
      rewrite nth_error_map in El. destruct (nth_error shape i) as [d|] eqn:Ed; [|discriminate]. inversion El; subst len. clear El.
      unfold lcomp in Egi. rewrite nth_error_map in Egi. destruct (nth_error (left_groups e L) i) as [gl|] eqn:Egl; [|discriminate]. inversion Egi; subst g. clear Egi.
      set (val := fun a => env0 sizes (axis_of a)).
      assert (Hval : given_lengths sizes val).
      { split; [|reflexivity]. intros s z Hz. unfold val. cbn. rewrite (dict_get_NoDup sizes s z Hnds Hz). reflexivity. }
      assert (Hkn : forall a, is_known names (axis_of a) = true <-> is_given names a).
      { intros [s|j|j n]; cbn [axis_of is_given].
        - cbn. rewrite str_mem_In. reflexivity.
        - split; [|intros []]. intros Hk. exfalso. unfold ell_axis in Hk. cbn [is_known] in Hk. apply str_mem_In in Hk. destruct (Hnames _ Hk) as [Hc _]. apply check_proper in Hc.
          destruct (proper_not_ell U _ HU Hc) as [_ Hne]. exact (Hne j eq_refl).
        - split; [intros _; exact I|reflexivity]. }
      cbv zeta in H. destruct H as [[Hus [-> Hne]]|[u [Hus [-> Hne]]]]; unfold true_of_call; cbn [about_side]; exists L, R; (split; [exact Hr|]).
      + assert (Hall : forall a, In a (map axis_of gl) -> is_known names a = true).
        { intros a Ha. destruct (is_known names a) eqn:E; [reflexivity|]. exfalso.
          assert (C : In a (filter (fun a => negb (is_known names a)) (map axis_of gl))) by (apply filter_In; rewrite E; auto). rewrite Hus in C. destruct C. }
        assert (Ek : filter (is_known names) (map axis_of gl) = map axis_of gl).
        { clear -Hall. induction (map axis_of gl) as [|a l IH]; [reflexivity|]. cbn. rewrite (Hall a (or_introl eq_refl)). f_equal. apply IH. intros b Hb. apply Hall. right. exact Hb. }
        rewrite Ek in Hne |- *. exists e, i, gl, d, val. split; [exact He|]. split; [exact Egl|]. split; [exact Ed|]. split; [reflexivity|]. split; [exact Hval|].
        split; [intros a Ha; apply Hkn, Hall, in_map; exact Ha|]. unfold product_of, val. rewrite <- (map_map axis_of (env0 sizes)). split; [reflexivity|exact Hne].
      + assert (Hs : exists a g1 g2, gl = g1 ++ a :: g2 /\ axis_of a = u /\ is_known names (axis_of a) = false /\ (forall b, In b (g1 ++ g2) -> is_known names (axis_of b) = true) /\
                  filter (is_known names) (map axis_of gl) = map axis_of (g1 ++ g2)).
        { clear -Hus. induction gl as [|b gl IH]; [discriminate|]. cbn [map filter] in Hus |- *. destruct (is_known names (axis_of b)) eqn:E; cbn [negb] in Hus.
          - destruct (IH Hus) as (a & g1 & g2 & -> & H2 & H3 & H4 & H5). exists a, (b :: g1), g2. split; [reflexivity|]. split; [exact H2|]. split; [exact H3|].
            split; [intros c [<-|Hc]; [exact E|apply H4; exact Hc]|]. cbn [app map]. f_equal. exact H5.
          - inversion Hus as [[Hu Hnil]]. exists b, [], gl. split; [reflexivity|]. split; [reflexivity|]. split; [exact E|].
            assert (Hall : forall a, In a gl -> is_known names (axis_of a) = true).
            { intros a Ha. destruct (is_known names (axis_of a)) eqn:E'; [reflexivity|]. exfalso.
              assert (C : In (axis_of a) (filter (fun a => negb (is_known names a)) (map axis_of gl))) by (apply filter_In; rewrite E'; split; [apply in_map; exact Ha|reflexivity]).
              rewrite Hnil in C. destruct C. }
            split; [exact Hall|]. cbn [app]. clear -Hall. induction gl as [|a l IH]; [reflexivity|]. cbn. rewrite (Hall a (or_introl eq_refl)). f_equal. apply IH. intros c Hc. apply Hall. right. exact Hc. }
        destruct Hs as (a & g1 & g2 & Egg & Ea & Hka & Hkb & Ek). rewrite Ek in Hne |- *.
        exists e, i, gl, d, val, a, g1, g2. split; [exact He|]. split; [exact Egl|]. split; [exact Ed|]. split; [reflexivity|]. split; [exact Egg|].
        split; [intros C; apply Hkn in C; congruence|]. split; [intros b Hbb; apply Hkn, Hkb; exact Hbb|]. split; [exact Hval|].
        unfold product_of, val. rewrite <- (map_map axis_of (env0 sizes)). split; [reflexivity|exact Hne].
    - intros st [i [kn un]] st' Hx Hst Hs. apply enumerate_at in Hx. rewrite nth_error_map in Hx.
      destruct (nth_error lcomp i) as [g|] eqn:Egi; [|discriminate]. inversion Hx; subst kn un. clear Hx.
      assert (Hg : In g lcomp) by (apply (nth_error_In _ i); exact Egi).
      destruct (nth_error (map Z.of_nat shape) i) as [len|] eqn:El; [|apply nth_error_None in El; rewrite Hlen in El; apply nth_error_None in El; congruence].
      apply (step_keeps o Ho names all HndA (env0 sizes) (map Z.of_nat shape) st i g len st'); [intros a Ha; apply HinA; left; apply in_concat; eauto| |exact El|exact Hst|exact Hs].
      unfold groups_ok in Eg. rewrite forallb_forall in Eg. apply Nat.leb_le. apply Eg. exact Hg.
    - exists (env0 sizes). split; [reflexivity|intros; reflexivity].
  Qed.
End Reconstruct.

(** ** the library raises no EinopsError *)
Section Clean.
  Context {A : Type} (lib : bool) (red : pystr -> list A -> result A) (isf : tensor A -> bool) (num : nat -> A).
  Context (Hred : forall s vs, red s vs <> Err EinopsError).

  Lemma clean_tabulate s (f : list nat -> result A) : (forall i, clean (f i)) -> clean (tabulate s f).
  Proof. intros H. apply clean_bind; [apply clean_mapM; exact H|intros; apply clean_Ok]. Qed.
  Lemma clean_getr_t (t : tensor A) i : clean (getr t i).
  Proof. apply clean_option. discriminate. Qed.
  Lemma clean_reshape (t : tensor A) s : clean (t_reshape lib t s).
  Proof.
    apply clean_bind; [|intros; apply clean_Ok]. unfold resolve_shape, clean.
    repeat (match goal with |- context [if ?c then _ else _] => destruct c end; try discriminate).
  Qed.
  Lemma clean_transpose (t : tensor A) s : clean (t_transpose t s).
  Proof. unfold t_transpose. destruct (is_permutation s (length (shp t))); [|discriminate]. apply clean_tabulate. intros i. apply clean_getr_t. Qed.
  Lemma clean_reduce f (t : tensor A) axes : (forall vs, clean (f vs)) -> clean (t_reduce f t axes).
  Proof.
    intros H. unfold t_reduce. destruct (forallb _ axes && nat_nodupb axes); [|discriminate]. apply clean_tabulate. intros i.
    apply clean_bind; [apply clean_mapM; intros; apply clean_getr_t|exact H].
  Qed.
  Lemma clean_expand_dims (t : tensor A) n : clean (t_expand_dims t n).
  Proof. unfold t_expand_dims. destruct (n <=? length (shp t)); discriminate. Qed.
  Lemma clean_expand_shape s r : clean (expand_shape s r).
  Proof.
    revert r. induction s as [|d s IH]; intros [|z r]; cbn [expand_shape]; try discriminate. apply clean_bind.
    - unfold expand_dim, clean. repeat (match goal with |- context [if ?c then _ else _] => destruct c end; try discriminate).
    - intros n. apply clean_bind; [apply IH|intros; apply clean_Ok].
  Qed.
  Lemma clean_expand (t : tensor A) r : clean (t_expand t r).
  Proof. apply clean_bind; [apply clean_expand_shape|]. intros s. apply clean_tabulate. intros i. apply clean_getr_t. Qed.
  Lemma clean_tile (t : tensor A) r : clean (t_tile t r).
  Proof. unfold t_tile. destruct ((length r =? length (shp t)) && all_nonneg r); [|discriminate]. apply clean_tabulate. intros i. apply clean_getr_t. Qed.
  Lemma clean_stack (ts : list (tensor A)) : clean (t_stack ts).
  Proof. unfold t_stack. destruct ts; [discriminate|]. destruct (forallb _ _); discriminate. Qed.
  Lemma clean_add_loop l (st : tensor A * list Z) :
    clean (foldM (fun '(x, repeats) '(p, l) => let* x := t_expand_dims x p in let* repeats := list_upd repeats p l in Ok (x, repeats)) l st).
  Proof.
    apply clean_foldM. intros [t rs] [q z]. apply clean_bind; [apply clean_expand_dims|]. intros t'. apply clean_bind; [apply clean_upd|]. intros; apply clean_Ok.
  Qed.
  Lemma clean_joint x s axes : clean (joint_reduce red x s axes).
  Proof. apply clean_reduce. intros vs. apply Hred. Qed.
  Lemma clean_sequential x s axes : clean (sequential_reduce red x s axes).
  Proof. apply clean_foldM. intros t i. apply clean_reduce. intros vs. apply Hred. Qed.

  Lemma clean_backend f : let B := backend_of lib red isf num f in
    (forall x s axes, clean (b_reduce B x s axes)) /\ (forall x n l, clean (b_add_axes B x n l)).
  Proof.
    assert (Htile : forall x n l, clean (tile_add_axes (A := A) x n l)) by (intros; apply clean_bind; [apply clean_add_loop|intros [? ?]; apply clean_tile]).
    assert (Hexp : forall x n l, clean (expand_add_axes (A := A) x n l)) by (intros; apply clean_bind; [apply clean_add_loop|intros [? ?]; apply clean_expand]).
    assert (Hpad : forall x s axes, clean (paddle_own_reduce red x s axes)).
    { intros. apply clean_bind; [apply clean_joint|]. intros t. destruct (length axes =? length (shp x)); discriminate. }
    cbv zeta. split; destruct f; cbn [backend_of make_backend b_reduce b_add_axes]; intros; auto using clean_joint, clean_sequential.
    - unfold torch_reduce. repeat (match goal with |- context [if ?c then _ else _] => destruct c end; auto using clean_joint, clean_sequential). discriminate.
    - apply clean_foldM. intros t i. destruct (str_mem s reductions); [|discriminate]. apply clean_reduce. intros vs. apply Hred.
    - unfold paddle_reduce. destruct (length axes =? length (shp x)); [|apply Hpad]. apply clean_bind; [apply Hpad|]. intros t. unfold squeeze0. destruct (shp t) as [|[|[|?]] ?]; discriminate.
    - unfold torch_jit_reduce. repeat (match goal with |- context [if ?c then _ else _] => destruct c end; auto using clean_joint, clean_sequential). discriminate.
  Qed.

  Context (g : reduction (tensor A)) (Hg : match g with RCall h => forall t axes, h t axes <> Err EinopsError | RStr _ => True end).
  Lemma clean_cooked f k t : clean (apply_cooked (backend_of lib red isf num f) k t g).
  Proof.
    destruct (clean_backend f) as [H1 H2]. set (B := backend_of lib red isf num f) in *.
    assert (E1 : b_reshape B = t_reshape lib) by (unfold B; destruct f; reflexivity). assert (E2 : b_transpose B = t_transpose) by (unfold B; destruct f; reflexivity).
    unfold apply_cooked. rewrite E1, E2.
    apply clean_bind; [destruct (k_init k); [apply clean_reshape|apply clean_Ok]|]. intros t1.
    apply clean_bind; [destruct (k_reorder k); [apply clean_transpose|apply clean_Ok]|]. intros t2.
    apply clean_bind.
    { destruct (k_reduced k); [apply clean_Ok|]. unfold reduce_axes. destruct g as [s|h]; [|apply Hg].
      apply clean_bind; [apply clean_if; discriminate|]. intros _. apply clean_bind; [apply clean_if; discriminate|]. intros _. apply H1. }
    intros t3. apply clean_bind; [destruct (k_added k); [apply clean_Ok|apply H2]|]. intros t4. destruct (k_final k); [apply clean_reshape|apply clean_Ok].
  Qed.
  Lemma clean_cooked_api k t : clean (apply_cooked_array_api (array_api_ns lib red) k t g).
  Proof.
    unfold apply_cooked_array_api, array_api_ns. cbn [xp_reshape xp_permute_dims xp_reduce xp_expand_dims xp_broadcast_to xp_shape].
    apply clean_bind; [destruct (k_init k); [apply clean_reshape|apply clean_Ok]|]. intros t1.
    apply clean_bind; [destruct (k_reorder k); [apply clean_transpose|apply clean_Ok]|]. intros t2.
    apply clean_bind.
    { destruct (k_reduced k); [apply clean_Ok|]. destruct g as [s|h]; [|apply Hg]. apply clean_bind; [apply clean_if; discriminate|]. intros _. apply clean_joint. }
    intros t3. apply clean_bind.
    { destruct (k_added k); [apply clean_Ok|]. apply clean_bind; [apply clean_foldM; intros ? [? ?]; apply clean_expand_dims|]. intros t'.
      apply clean_bind; [apply clean_foldM; intros ? [? ?]; apply clean_upd|]. intros s. unfold t_broadcast_to. destruct (all_nonneg s); [apply clean_expand|discriminate]. }
    intros t4. destruct (k_final k); [apply clean_reshape|apply clean_Ok].
  Qed.
End Clean.

(** ** reports *)
Lemma stack_shape {A} (ts : list (tensor A)) t : t_stack ts = Ok t -> shape_seen (Many ts) (shp t).
Proof. unfold t_stack. destruct ts as [|t0 ts]; [discriminate|]. destruct (forallb _ _); [|discriminate]. intros H. inversion H; subst t. exists t0, ts. split; reflexivity. Qed.

Section Reports.
  Context {A : Type} (lib : bool) (red : pystr -> list A -> result A) (isf : tensor A -> bool) (num : nat -> A) (f : framework).
  Context (U : unicode) (HU : unicode_ok U) (o : orders) (Ho : orders_ok o) (g : reduction (tensor A)) (Hown : own_errors red g).
  Context (printable : N -> bool) (callable foreign : pystr) (shape_text : list Z -> pystr).
  Notation B := (backend_of lib red isf num f).
  Notation X := (array_api_ns lib red).

  Lemma wrong_true p sizes (t : tensor A) (rest : cooked Z -> result (tensor A)) m : NoDup (map fst sizes) -> (forall k, clean (rest k)) ->
    (let! r := prepare_recipe_msg U o p (op_of g) (map fst sizes) (length (int_shape t)) in
     let! k := reconstruct_msg int_ops r (int_shape t) sizes in lift (rest k)) = Wrong m ->
    true_of_call U p (op_of g) sizes (shp t) m.
  Proof.
    intros Hnd Hc H. unfold int_shape in H. rewrite map_length in H.
    apply then_Wrong in H as [H|[r [Hr H]]]; [exact (prepare_true U HU o Ho p (op_of g) sizes (shp t) m H)|].
    apply then_Wrong in H as [H|[k [_ H]]]; [exact (reconstruct_true U HU o Ho p (op_of g) sizes (shp t) r m Hnd Hr H)|].
    exfalso. exact (clean_lift _ _ (Hc k) H).
  Qed.

  Lemma reduce_reports x p sizes text : NoDup (map fst sizes) ->
    reduce_answer U o int_ops B printable callable foreign str_of_int shape_text (Ok tt) x p g sizes = Reports text ->
    exists m s, shape_seen x s /\ true_of_call U p (op_of g) sizes s m /\
      text = report printable callable foreign (op_of g) p (shape_line (shape_text (map Z.of_nat s))) (dict_text printable str_of_int sizes) m.
  Proof.
    intros Hnd H. unfold reduce_answer in H. destruct (check_kwargs reserved_kwargs sizes); [|discriminate].
    assert (Es : b_stack B = t_stack) by (destruct f; reflexivity). assert (Eh : b_shape B = int_shape) by (destruct f; reflexivity).
    assert (Main : forall t, shape_seen x (shp t) ->
      match (let! r := prepare_recipe_msg U o p (op_of g) (map fst sizes) (length (b_shape B t)) in apply_recipe_msg int_ops B r t g sizes) with
      | Fine t => Returns t
      | Fails e => Raises e
      | Wrong m => Reports (report printable callable foreign (op_of g) p (shape_line (shape_text (b_shape B t))) (dict_text printable str_of_int sizes) m)
      end = Reports text ->
      exists m s, shape_seen x s /\ true_of_call U p (op_of g) sizes s m /\
      text = report printable callable foreign (op_of g) p (shape_line (shape_text (map Z.of_nat s))) (dict_text printable str_of_int sizes) m).
    { intros t Hs H'. unfold apply_recipe_msg in H'. rewrite Eh in H'.
      destruct (let! r := prepare_recipe_msg U o p (op_of g) (map fst sizes) (length (int_shape t)) in _) as [t'|m|e] eqn:Em in H'; try discriminate.
      inversion H'; subst text. exists m, (shp t). split; [exact Hs|]. split; [|reflexivity].
      apply (wrong_true p sizes t (fun k => apply_cooked B k t g) m Hnd); [|exact Em].
      intros k. apply clean_cooked; apply Hown. }
    unfold reduce_body in H. cbn [bind] in H. destruct x as [t|[|t0 ts]]; [|discriminate|].
    - cbn [stack_input] in H. apply (Main t); [reflexivity|]. exact H.
    - cbn [stack_input] in H. rewrite Es in H. destruct (t_stack (t0 :: ts)) as [t|e] eqn:Et.
      + apply (Main t); [exact (stack_shape _ _ Et)|exact H].
      + exfalso. pose proof (clean_stack (t0 :: ts)) as Hc. rewrite Et in Hc. destruct e; try discriminate. apply Hc. reflexivity.
  Qed.

  Lemma xp_reports x p sizes text : NoDup (map fst sizes) ->
    xp_reduce_answer U o X printable callable foreign shape_text x p g sizes = Reports text ->
    exists m s, shape_seen x s /\ true_of_call U p (op_of g) sizes s m /\
      text = report printable callable foreign (op_of g) p (shape_line (shape_text (map Z.of_nat s))) (dict_text printable str_of_int sizes) m.
  Proof.
    intros Hnd H. unfold xp_reduce_answer in H. destruct (check_kwargs reserved_kwargs sizes); [|discriminate]. cbn [bind] in H.
    destruct (stack_input_array_api X x) as [t|e] eqn:Et; [|discriminate]. cbv zeta in H. change (xp_shape X t) with (int_shape t) in H.
    destruct (let! r := prepare_recipe_msg U o p (op_of g) (map fst sizes) (length (int_shape t)) in _) as [t'|m|e] eqn:Em in H; try discriminate.
    inversion H; subst text. exists m, (shp t). split.
    { destruct x as [t0|[|t0 ts]]; [inversion Et; reflexivity|discriminate|exact (stack_shape _ _ Et)]. }
    split; [|reflexivity]. apply (wrong_true p sizes t (fun k => apply_cooked_array_api X k t g) m Hnd); [|exact Em].
    intros k. apply clean_cooked_api; apply Hown.
  Qed.
End Reports.
