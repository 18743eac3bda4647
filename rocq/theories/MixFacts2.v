(** * EinMix: when a layer can be made, and what it stores *)
From Verif Require Import Py Tensor ListFacts SpecSem SpecGrammar SpecPattern SpecForms SpecOps SpecEinsum Parsing Compile Recipe Ops Backends Api
  ParseFacts ParseFacts2 ParseFacts3 FrontFacts FrontFacts2 FrontFacts3 MainFacts MainFacts2 MainFacts3 EinsumFacts EinsumFacts2 EinsumFacts3 EinsumFacts4
  Layers Einsum LayerFacts EinMix SpecEinMix MixFacts.
From Coq Require Import Permutation.

(** ** sets of axes *)
Lemma union_update a b : set_union a b = set_update a b.
Proof. reflexivity. Qed.
Lemma in_union x a b : In x (set_union a b) <-> In x a \/ In x b.
Proof. rewrite union_update, in_update. tauto. Qed.
Lemma report_ok a b : report_axes (set_diff a b) = Ok tt <-> incl a b.
Proof.
  rewrite <- set_diff_nil. unfold report_axes. rewrite raise_if_Ok. destruct (set_diff a b); cbn; intuition congruence.
Qed.

Lemma ids_names k k' k'' E F G : has_numbers E = false ->
  (incl (ids k E) (set_union (ids k' F) (ids k'' G)) <-> incl (keys E) (keys F ++ keys G)).
Proof.
  intros Hn. split; intros H.
  - intros s Hs. assert (X : In (AxName s) (ids k E)) by (apply in_ids; exact Hs). apply H, in_union in X. apply in_or_app.
    destruct X as [X|X]; apply in_ids in X; auto.
  - intros [s|j n] Ha; apply in_ids in Ha; [|exfalso; exact (no_numbers_big _ _ _ _ Hn Ha)].
    apply in_union. apply H, in_app_or in Ha as [Ha|Ha]; [left|right]; apply in_ids; exact Ha.
Qed.

(** ** parentheses in a text *)
Lemma spells_parens s ts : spells s ts -> existsb (fun c => (c =? c_open)%N || (c =? c_close)%N) s = false <-> (forall t, In t ts -> exists w, t = TWord w).
Proof.
  induction 1 as [|s ts _ IH|s ts _ IH|s ts _ IH|w s ts Hw Hc _ _ IH].
  - cbn. split; [intros _ t []|reflexivity].
  - exact IH.
  - cbn. split; [discriminate|]. intros H. destruct (H TOpen) as [w X]; [left; reflexivity|discriminate].
  - cbn. split; [discriminate|]. intros H. destruct (H TClose) as [w X]; [left; reflexivity|discriminate].
  - rewrite existsb_app. assert (E : existsb (fun c => (c =? c_open)%N || (c =? c_close)%N) w = false).
    { destruct (existsb _ w) eqn:E; [|reflexivity]. exfalso. apply existsb_exists in E as [c [Hin E]]. apply (Hc c Hin).
      apply orb_true_iff in E as [E|E]; apply N.eqb_eq in E; [left|right; left]; exact E. }
    rewrite E. cbn [orb]. rewrite IH. split; intros H t Ht; [destruct Ht as [<-|Ht]; [eauto|apply H, Ht]|apply H; right; exact Ht].
Qed.
Lemma structured_parens U au ts E : structured U au ts E -> (forall t, In t ts -> exists w, t = TWord w) <-> (forall i, In i E -> exists a, i = Atom a).
Proof.
  induction 1 as [|w a ts E Hw _ IH|ws l ts E Hl _ IH].
  - split; intros _ x [].
  - split; intros H x [<-|Hx]; try (eexists; reflexivity).
    + apply IH; [|exact Hx]. intros t Ht. apply H. right. exact Ht.
    + apply IH; [|exact Hx]. intros t Ht. apply H. right. exact Ht.
  - split; intros H; exfalso.
    + destruct (H TOpen) as [w X]; [left; reflexivity|discriminate].
    + destruct (H (Group l)) as [a X]; [left; reflexivity|discriminate].
Qed.
Lemma written_parens U s E : written U s E ->
  (existsb (fun c => (c =? c_open)%N || (c =? c_close)%N) s = false <-> (forall i, In i E -> exists a, i = Atom a)).
Proof. intros (ts & H1 & H2 & _). rewrite (spells_parens s ts H1). eapply structured_parens; eauto. Qed.

(** ** sorting *)
Lemma insert_perm s l : Permutation (s :: l) (str_insert s l).
Proof.
  induction l as [|t l IH]; cbn; [reflexivity|]. destruct (str_leb s t); [reflexivity|]. rewrite perm_swap. constructor. exact IH.
Qed.
Lemma sorted_perm l : Permutation l (str_sorted l).
Proof. induction l as [|s l IH]; cbn; [constructor|]. rewrite <- insert_perm. constructor. exact IH. Qed.

(** ** lengths *)
Definition size_of (sizes : list (pystr * Z)) (s : pystr) : Z := match dict_get str_eqb s sizes with Some z => z | None => 0%Z end.
Lemma dict_has_In {V} (d : list (pystr * V)) s : dict_has str_eqb s d = true <-> In s (map fst d).
Proof.
  unfold dict_has. split.
  - intros H. destruct (dict_get str_eqb s d) as [v|] eqn:E; [|discriminate]. clear H. induction d as [|[k w] d IH]; cbn in E; [discriminate|].
    destruct (str_eqb s k) eqn:Es; [apply str_eqb_eq in Es; left; symmetry; exact Es|right; apply IH, E].
  - intros H. apply dict_get_In in H as [v [E _]]. rewrite E. reflexivity.
Qed.
Lemma length_size sizes s : In s (map fst sizes) -> length_of sizes (AxName s) = Ok (size_of sizes s).
Proof. intros H. unfold length_of, size_of. apply dict_get_In in H as [v [E _]]. rewrite E. reflexivity. Qed.
Lemma size_in sizes s : In s (map fst sizes) -> In (s, size_of sizes s) sizes.
Proof. intros H. unfold size_of. apply dict_get_In in H as [v [E Hv]]. rewrite E. exact Hv. Qed.
Lemma size_unique sizes s z : NoDup (map fst sizes) -> In (s, z) sizes -> size_of sizes s = z.
Proof. intros Hn H. unfold size_of. rewrite (dict_get_NoDup sizes s z Hn H). reflexivity. Qed.

(** ** the weight *)
Definition named (W : expr) : Prop := forall i, In i W -> exists s, i = Atom (AName s).
Lemma named_keys W : named W -> W = map (fun s => Atom (AName s)) (keys W).
Proof.
  unfold keys. induction W as [|i W IH]; intros H; [reflexivity|]. destruct (H i) as [s ->]; [left; reflexivity|].
  cbn [atoms flat_map item_atoms app atom_key map]. f_equal. apply IH. intros j Hj. apply H. right. exact Hj.
Qed.
Lemma comps_named k W : plain W -> named W -> comps k W = map (fun s => CGrp [AxName s]) (keys W).
Proof.
  revert k. unfold plain. induction W as [|i W IH]; intros k Hp H; [reflexivity|]. destruct (H i) as [s ->]; [left; reflexivity|].
  assert (Hs : str_eqb s ell_name = false).
  { destruct (str_eqb s ell_name) eqn:E; [|reflexivity]. apply str_eqb_eq in E. subst. exfalso. apply Hp. left. reflexivity. }
  cbn [comps item_comp is_ell]. rewrite Hs. rewrite keys_cons. cbn [item_atoms flat_map atom_key app map]. cbn [atom_axes]. f_equal. apply IH.
  - intros X. apply Hp. right. exact X.
  - intros j Hj. apply H. right. exact Hj.
Qed.
Lemma only_axes k W : plain W -> has_dots W = false -> has_numbers W = false -> (forall i, In i W -> exists a, i = Atom a) ->
  forall axs, mapM only_axis (comps k W) = Ok axs <-> named W /\ axs = map AxName (keys W).
Proof.
  intros Hp Hd Hb Ha axs. split.
  - intros H. assert (Hn : named W).
    { clear -H Hd Hb Ha. revert k axs H. induction W as [|i W IH]; intros k axs H j Hj; [destruct Hj|].
      unfold has_dots, has_numbers, atoms in Hd, Hb. cbn [flat_map] in Hd, Hb. rewrite existsb_app in Hd, Hb. apply orb_false_iff in Hd as [Hd1 Hd2]. apply orb_false_iff in Hb as [Hb1 Hb2].
      cbn [comps mapM] in H. apply bind_Ok in H as [a [H1 H]]. apply bind_Ok in H as [axs' [H2 _]].
      destruct Hj as [<-|Hj]; [|eapply IH; eauto; intros i' Hi'; apply Ha; right; exact Hi'].
      destruct (Ha i) as [b ->]; [left; reflexivity|]. destruct b as [s|n|].
      - eexists; reflexivity.
      - exfalso. cbn in Hb1. rewrite orb_false_r in Hb1. apply negb_false_iff in Hb1. cbn in H1. rewrite Hb1 in H1. discriminate.
      - cbn in Hd1. discriminate. }
    split; [exact Hn|]. rewrite (comps_named k W Hp Hn), mapM_map in H. cbn in H. rewrite (mapM_pure AxName) in H. injection H as <-. reflexivity.
  - intros [Hn ->]. rewrite (comps_named k W Hp Hn), mapM_map. cbn. apply mapM_pure.
Qed.
Lemma in_names_ids k R s : axis_mem (AxName s) (ids k R) = str_mem s (keys R).
Proof.
  apply eq_true_iff_eq. rewrite str_mem_In. rewrite <- (in_ids k R (AxName s)). unfold axis_mem. rewrite existsb_exists. split.
  - intros [a [Ha E]]. apply axis_eqb_eq in E. subst. exact Ha.
  - intros H. exists (AxName s). split; [exact H|]. apply axis_eqb_eq. reflexivity.
Qed.
Definition fan_of (sizes : list (pystr * Z)) (W R : expr) : Z :=
  fold_left Z.mul (map (size_of sizes) (filter (fun s => negb (str_mem s (keys R))) (keys W))) 1%Z.

(** ** the bias *)
Definition names_in (l : list atom) : list pystr := filter (fun s => negb (str_eqb s ell_name)) (flat_map atom_key l).
Definition bias_dim (sizes : list (pystr * Z)) (B : expr) (s : pystr) : Z := if str_mem s (keys B) then size_of sizes s else 1%Z.
Lemma bias_loop sizes kb B : incl (keys B) (map fst sizes) -> forall l k sh u st, existsb is_big l = false -> ~ In (AName ell_name) l ->
  foldM (bias_step (ids kb B) sizes) (atoms_axes k l) (sh, u) = Ok st <->
  (forall pre post, l = pre ++ ADots :: post -> u = false /\ forall s, In (AName s) pre -> ~ In s (keys B)) /\
  st = (sh ++ map (bias_dim sizes B) (names_in l), u || existsb (fun s => str_mem s (keys B)) (names_in l)).
Proof.
  intros Hi. induction l as [|a l IH]; intros k sh u st Hb Hn.
  - cbn. rewrite app_nil_r, orb_false_r. split; [intros H; injection H as <-|intros [_ ->]; reflexivity].
    split; [|reflexivity]. intros pre post E. destruct pre; discriminate.
  - cbn [existsb] in Hb. apply orb_false_iff in Hb as [Hb1 Hb2]. assert (Hn2 : ~ In (AName ell_name) l) by (intros X; apply Hn; right; exact X).
    destruct a as [s|n|].
    + assert (Hs : str_eqb s ell_name = false).
      { destruct (str_eqb s ell_name) eqn:E; [|reflexivity]. apply str_eqb_eq in E. subst. exfalso. apply Hn. left. reflexivity. }
      assert (Ha : axis_eqb (AxName s) ax_ellipsis = false).
      { destruct (axis_eqb (AxName s) ax_ellipsis) eqn:E; [|reflexivity]. apply axis_eqb_eq in E. injection E as E. rewrite E in Hs. discriminate. }
      cbn [atoms_axes atom_axes app foldM]. unfold bias_step at 1. rewrite Ha, in_names_ids.
      assert (En : names_in (AName s :: l) = s :: names_in l) by (unfold names_in; cbn [flat_map atom_key app filter]; rewrite Hs; reflexivity).
      rewrite En. cbn [map existsb]. unfold bias_dim at 1.
      destruct (str_mem s (keys B)) eqn:Em.
      * apply str_mem_In in Em. rewrite length_size by (apply Hi, Em). cbn [bind]. rewrite IH by auto. rewrite <- app_assoc. cbn [app orb]. rewrite orb_true_r.
        split; intros [H ->]; (split; [|reflexivity]).
        -- intros pre post E. exfalso. destruct pre as [|b pre]; [discriminate|]. injection E as _ E. destruct (H _ _ E). discriminate.
        -- intros pre post E. exfalso. destruct (H (AName s :: pre) post) as [_ X]; [rewrite E; reflexivity|]. apply (X s); [left; reflexivity|exact Em].
      * cbn [bind]. rewrite IH by auto. rewrite <- app_assoc. cbn [app orb].
        split; intros [H ->]; (split; [|reflexivity]).
        -- intros pre post E. destruct pre as [|b pre]; [discriminate|]. injection E as <- E. destruct (H _ _ E) as [H1 H2]. split; [exact H1|].
           intros t [Ht|Ht]; [injection Ht as <-; intros X; apply str_mem_In in X; congruence|apply H2, Ht].
        -- intros pre post E. destruct (H (AName s :: pre) post) as [H1 H2]; [rewrite E; reflexivity|]. split; [exact H1|]. intros t Ht. apply H2. right. exact Ht.
    + cbn in Hb1. apply negb_false_iff in Hb1. cbn [atoms_axes atom_axes]. rewrite Hb1. cbn [app]. rewrite IH by auto.
      change (names_in (ANum n :: l)) with (names_in l). split; intros [H ->]; (split; [|reflexivity]).
      * intros pre post E. destruct pre as [|b pre]; [discriminate|]. injection E as <- E. destruct (H _ _ E) as [H1 H2]. split; [exact H1|].
        intros t [Ht|Ht]; [discriminate|apply H2, Ht].
      * intros pre post E. destruct (H (ANum n :: pre) post) as [H1 H2]; [rewrite E; reflexivity|]. split; [exact H1|]. intros t Ht. apply H2. right. exact Ht.
    + cbn [atoms_axes atom_axes app foldM]. unfold bias_step at 1. rewrite (proj2 (axis_eqb_eq ax_ellipsis ax_ellipsis) eq_refl).
      assert (En : names_in (ADots :: l) = names_in l) by reflexivity. rewrite En.
      destruct u.
      * cbn [raise_if bind]. split; [discriminate|]. intros [H _]. destruct (H [] l eq_refl). discriminate.
      * cbn [raise_if bind]. rewrite IH by auto. split; intros [H ->]; (split; [|reflexivity]).
        -- intros pre post E. destruct pre as [|b pre]; [split; [reflexivity|intros s []]|]. injection E as <- E. destruct (H _ _ E) as [H1 H2]. split; [exact H1|].
           intros t [Ht|Ht]; [discriminate|apply H2, Ht].
        -- intros pre post E. destruct (H (ADots :: pre) post) as [H1 H2]; [rewrite E; reflexivity|]. split; [exact H1|]. intros t Ht. apply H2. right. exact Ht.
Qed.
