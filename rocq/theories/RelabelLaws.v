(** * Renaming axes, writing out the ellipsis, numbers instead of names *)
From Verif Require Import Py Tensor ListFacts TensorFacts SpecSem SpecGrammar SpecForms SpecPattern SpecOps Parsing Compile Recipe Ops Backends Api StepFacts ParseFacts ParseFacts2 ParseFacts3 RecipeFacts InferFacts ApplyFacts FrontFacts FrontFacts2 FrontFacts3 MainFacts MainFacts2 ReduceFacts MainFacts3 CallFacts RelabelFacts ApiFacts ApiFacts2.

(** ** from the core of a call to the functions *)
Section Lift.
  Context {A : Type} (r : runtime A).
  Notation U := (rt_unicode r).
  Notation o := (rt_orders r).

  Lemma kwargs_same (sizes sizes' : list (pystr * Z)) : no_reserved sizes -> no_reserved sizes' ->
    check_kwargs reserved_kwargs sizes = check_kwargs reserved_kwargs sizes'.
  Proof. intros H H'. apply check_kwargs_iff in H, H'. congruence. Qed.

  Lemma lift_rank p p' rd (sizes sizes' : list (pystr * Z)) n : no_reserved sizes -> no_reserved sizes' ->
    (forall reduce_ add_ (x : tensor A), length (shp x) = n ->
       core_call U o (rt_lib r) reduce_ add_ p (op_of rd) sizes x = core_call U o (rt_lib r) reduce_ add_ p' (op_of rd) sizes' x) ->
    forall x : input (tensor A), input_rank x n ->
      reduce r x p rd sizes = reduce r x p' rd sizes' /\ xp_reduce_ r x p rd sizes = xp_reduce_ r x p' rd sizes'.
  Proof.
    intros Hs Hs' H x Hx. pose proof (kwargs_same sizes sizes' Hs Hs') as Ek.
    assert (Hst : forall ts t, x = Many ts -> t_stack ts = Ok t -> length (shp t) = n).
    { intros ts t -> E. unfold t_stack in E. destruct ts as [|t0 ts]; [discriminate|].
      destruct (forallb _ _); [|discriminate]. injection E as <-. cbn. apply Hx. left. reflexivity. }
    unfold reduce, xp_reduce_, rt_backend, rt_ns. split.
    - assert (G : forall t, length (shp t) = n -> api_reduce U o int_ops (backend_of (rt_lib r) (rt_red r) (rt_isf r) (rt_num r) (rt_framework r)) (One t) p rd sizes =
                            api_reduce U o int_ops (backend_of (rt_lib r) (rt_red r) (rt_isf r) (rt_num r) (rt_framework r)) (One t) p' rd sizes').
      { intros t Ht. rewrite !api_core, Ek. apply bind_ext. intros _ _. apply H, Ht. }
      destruct x as [t|ts]; [apply G; exact Hx|]. rewrite !api_many, Ek. apply bind_ext. intros _ _. apply bind_ext. intros t Ht.
      apply G. destruct ts as [|t0 ts]; [discriminate|]. apply (Hst _ t eq_refl). rewrite <- Ht. destruct (rt_framework r); reflexivity.
    - assert (G : forall t, length (shp t) = n -> aa_reduce U o (array_api_ns (rt_lib r) (rt_red r)) (One t) p rd sizes =
                            aa_reduce U o (array_api_ns (rt_lib r) (rt_red r)) (One t) p' rd sizes').
      { intros t Ht. rewrite !aa_core, Ek. apply bind_ext. intros _ _. apply H, Ht. }
      destruct x as [t|ts]; [apply G; exact Hx|]. rewrite !aa_many, Ek. apply bind_ext. intros _ _. apply bind_ext. intros t Ht.
      apply G. destruct ts as [|t0 ts]; [discriminate|]. apply (Hst _ t eq_refl). exact Ht.
  Qed.
  Lemma lift_call p p' rd (sizes sizes' : list (pystr * Z)) : no_reserved sizes -> no_reserved sizes' ->
    (forall reduce_ add_ (x : tensor A), core_call U o (rt_lib r) reduce_ add_ p (op_of rd) sizes x =
                            core_call U o (rt_lib r) reduce_ add_ p' (op_of rd) sizes' x) ->
    forall x : input (tensor A), reduce r x p rd sizes = reduce r x p' rd sizes' /\
      xp_reduce_ r x p rd sizes = xp_reduce_ r x p' rd sizes'.
  Proof.
    intros Hs Hs' H x. pose proof (kwargs_same sizes sizes' Hs Hs') as Ek.
    unfold reduce, xp_reduce_, rt_backend, rt_ns. split.
    - assert (G : forall t, api_reduce U o int_ops (backend_of (rt_lib r) (rt_red r) (rt_isf r) (rt_num r) (rt_framework r)) (One t) p rd sizes =
                            api_reduce U o int_ops (backend_of (rt_lib r) (rt_red r) (rt_isf r) (rt_num r) (rt_framework r)) (One t) p' rd sizes').
      { intros t. rewrite !api_core, Ek. apply bind_ext. intros _ _. apply H. }
      destruct x as [t|ts]; auto. rewrite !api_many, Ek. apply bind_ext. intros _ _. apply bind_ext. intros t _. auto.
    - assert (G : forall t, aa_reduce U o (array_api_ns (rt_lib r) (rt_red r)) (One t) p rd sizes =
                            aa_reduce U o (array_api_ns (rt_lib r) (rt_red r)) (One t) p' rd sizes').
      { intros t. rewrite !aa_core, Ek. apply bind_ext. intros _ _. apply H. }
      destruct x as [t|ts]; auto. rewrite !aa_many, Ek. apply bind_ext. intros _ _. apply bind_ext. intros t _. auto.
  Qed.
End Lift.

(** ** deciding the first checks *)
Lemma incl_dec (l m : list pystr) : {incl l m} + {~ incl l m}.
Proof.
  destruct (forallb (fun s => str_mem s m) l) eqn:E.
  - left. intros s Hs. rewrite forallb_forall in E. apply str_mem_In, E, Hs.
  - right. intros H. apply Bool.not_true_iff_false in E. apply E. apply forallb_forall. intros s Hs. apply str_mem_In, H, Hs.
Qed.
Lemma ident_dec w L R names : {ident_ok w L R names} + {~ ident_ok w L R names}.
Proof.
  assert (B : forall b : bool, {b = false} + {b <> false}) by (intros []; auto; right; discriminate).
  destruct w; cbn [ident_ok].
  - destruct (B (has_numbers L)), (B (has_numbers R)), (incl_dec (keys L) (keys R)), (incl_dec (keys R) (keys L)); tauto.
  - destruct (B (has_numbers L)), (incl_dec (keys L) (keys R)), (incl_dec (keys R) (keys L ++ names)); tauto.
  - destruct (B (has_numbers R)), (incl_dec (keys R) (keys L)); tauto.
Qed.
Lemma front_dec w L R names n : {e | front_ok w L R names n e} + {forall e, ~ front_ok w L R names n e}.
Proof.
  unfold front_ok. destruct (ident_dec w L R names) as [Hi|Hi]; [|right; intros e H; tauto].
  destruct (Bool.bool_dec (has_dots R) true) as [Hd|Hd]; [destruct (Bool.bool_dec (has_dots L) true) as [Hl|Hl]; [|right; intros e H; tauto]|].
  all: destruct (has_dots L) eqn:EL; try congruence; unfold no_grouped, rank_fits; rewrite EL.
  1,2: destruct (Bool.bool_dec (existsb grouped_ell L) false) as [Hg|Hg]; [|right; intros e H; tauto].
  1,2: destruct (le_lt_dec (length L) (S n)) as [Hle|Hlt]; [left; exists (S n - length L); repeat split; auto; lia|right; intros e H; lia].
  destruct (Nat.eq_dec (length L) n) as [Hn|Hn]; [left; exists 0; repeat split; auto; congruence|right; intros e H; tauto].
Qed.

(** ** labels of an expression *)
Lemma in_atoms_labels dots e l : forall k a, In a (atoms_labels dots e k l) ->
  match a with
  | LName s => In (AName s) l /\ (dots = true -> s <> ell_name)
  | LDots i => i < e /\ exists b, In b l /\ stands_for_dots dots b = true
  | LNum j n => k <= j < k + nbig l /\ In (ANum n) l
  end.
Proof.
  induction l as [|b l IH]; intros k a H; [destruct H|]. cbn [atoms_labels] in H. apply in_app_or in H as [H|H].
  - unfold atom_labels in H. destruct (stands_for_dots dots b) eqn:E.
    + apply in_map_iff in H as [i [<- Hi]]. apply in_seq in Hi. split; [lia|]. exists b. split; [left|]; auto.
    + destruct b as [s|n|]; [destruct H as [<-|[]]|destruct (n =? 1)%Z eqn:En; [destruct H|destruct H as [<-|[]]]|destruct H].
      * split; [left; auto|]. cbn in E. intros ->. intros ->. rewrite str_eqb_refl in E. discriminate.
      * split; [|left; auto]. cbn. unfold nbig. cbn. rewrite En. cbn. lia.
  - apply IH in H. destruct a as [s|i|j n].
    + destruct H as [H1 H2]. split; [right|]; auto.
    + destruct H as [H1 [c [H2 H3]]]. split; auto. exists c. split; [right|]; auto.
    + destruct H as [H1 H2]. split; [|right; auto]. unfold nbig in *. cbn [filter] in *. destruct (is_big b); cbn [length] in *; lia.
Qed.
Lemma in_labels dots e k ex a : In a (concat (groups dots e k ex)) ->
  match a with
  | LName s => In s (keys ex) /\ (dots = true -> s <> ell_name)
  | LDots i => i < e /\ exists b, In b (atoms ex) /\ stands_for_dots dots b = true
  | LNum j n => k <= j < k + nbig (atoms ex) /\ In (ANum n) (atoms ex)
  end.
Proof.
  rewrite concat_groups. intros H. apply in_atoms_labels in H. destruct a; auto. destruct H as [H1 H2]. split; auto.
  unfold keys. apply in_flat_map. eexists. split; [exact H1|]. left. reflexivity.
Qed.

(** ** renaming *)
Definition rho_name (f : pystr -> pystr) (a : label) : label := match a with LName s => LName (f s) | _ => a end.

Lemma atoms_on g ex : atoms (map (on_atoms g) ex) = map g (atoms ex).
Proof. unfold atoms. induction ex as [|[a|l] ex IH]; cbn [map flat_map on_atoms item_atoms]; [reflexivity| |]; rewrite map_app, IH; reflexivity. Qed.
Lemma nbig_on g l : (forall a, is_big (g a) = is_big a) -> nbig (map g l) = nbig l.
Proof.
  intros H. unfold nbig. induction l as [|a l IH]; [reflexivity|]. cbn [map filter]. rewrite H. destruct (is_big a); cbn [length]; auto.
Qed.
Lemma existsb_on {B} (p : B -> bool) g l : (forall a, p (g a) = p a) -> existsb p (map g l) = existsb p l.
Proof. intros H. induction l as [|a l IH]; [reflexivity|]. cbn [map existsb]. rewrite H, IH. reflexivity. Qed.

Section Rename.
  Context (f : pystr -> pystr) (N : list pystr) (Hf : renaming f N).
  Lemma f_ell s : In s N -> str_eqb (f s) ell_name = str_eqb s ell_name.
  Proof.
    intros Hs. destruct Hf as [He Hi]. destruct (str_eqb s ell_name) eqn:E.
    - apply str_eqb_eq in E. subst s. rewrite He. apply str_eqb_refl.
    - destruct (str_eqb (f s) ell_name) eqn:E'; auto. apply str_eqb_eq in E'. exfalso.
      assert (s = ell_name) by (apply Hi; [right; auto|left; auto|congruence]). subst s. rewrite str_eqb_refl in E. discriminate.
  Qed.
  Lemma f_mem s l : In s N -> incl l N -> str_mem (f s) (map f l) = str_mem s l.
  Proof.
    intros Hs Hl. destruct (str_mem s l) eqn:E.
    - apply str_mem_In. apply in_map. apply str_mem_In; auto.
    - destruct (str_mem (f s) (map f l)) eqn:E'; auto. apply str_mem_In in E'. apply in_map_iff in E' as [t [Et Ht]].
      assert (t = s) by (apply (proj2 Hf); [right; auto|right; auto|auto]). subst t. apply str_mem_In in Ht. congruence.
  Qed.
  Lemma f_in s l : In s N -> incl l N -> (In (f s) (map f l) <-> In s l).
  Proof. intros Hs Hl. rewrite <- !str_mem_In. rewrite f_mem by auto. reflexivity. Qed.
  Lemma f_incl l m : incl l N -> incl m N -> (incl (map f l) (map f m) <-> incl l m).
  Proof.
    intros Hl Hm. split; intros H s Hs.
    - apply (f_in s m); auto. apply H. apply in_map; auto.
    - apply in_map_iff in Hs as [t [<- Ht]]. apply in_map, H, Ht.
  Qed.

  Lemma rename_keys ex : keys (rename f ex) = map f (keys ex).
  Proof.
    unfold keys, rename. rewrite atoms_on. induction (atoms ex) as [|a l IH]; [reflexivity|]. cbn [map flat_map]. rewrite map_app, IH.
    f_equal. destruct a; try reflexivity. cbn. rewrite (proj1 Hf). reflexivity.
  Qed.
  Lemma rename_dots ex : has_dots (rename f ex) = has_dots ex.
  Proof. unfold has_dots, rename. rewrite atoms_on. apply existsb_on. intros []; reflexivity. Qed.
  Lemma rename_numbers ex : has_numbers (rename f ex) = has_numbers ex.
  Proof. unfold has_numbers, rename. rewrite atoms_on. apply existsb_on. intros []; reflexivity. Qed.
  Lemma rename_nbig ex : nbig (atoms (rename f ex)) = nbig (atoms ex).
  Proof. unfold rename. rewrite atoms_on. apply nbig_on. intros []; reflexivity. Qed.

  Lemma key_of_atom a l : In a l -> forall s, a = AName s -> In s (flat_map atom_key l).
  Proof. intros H s ->. apply in_flat_map. eexists. split; [exact H|left; reflexivity]. Qed.
  Lemma rename_stands dots a : (forall s, a = AName s -> In s N) -> stands_for_dots dots (rename_atom f a) = stands_for_dots dots a.
  Proof. intros H. destruct a as [s|n|]; try reflexivity. cbn. rewrite f_ell by (apply H; reflexivity). reflexivity. Qed.
  Lemma rename_atom_labels dots e k a : (forall s, a = AName s -> In s N) ->
    atom_labels dots e k (rename_atom f a) = map (rho_name f) (atom_labels dots e k a).
  Proof.
    intros H. unfold atom_labels. rewrite rename_stands by auto. destruct (stands_for_dots dots a).
    - rewrite map_map. reflexivity.
    - destruct a as [s|n|]; try reflexivity. cbn. destruct (n =? 1)%Z; reflexivity.
  Qed.
  Lemma rename_atoms_labels dots e l : forall k, (forall s, In (AName s) l -> In s N) ->
    atoms_labels dots e k (map (rename_atom f) l) = map (rho_name f) (atoms_labels dots e k l).
  Proof.
    induction l as [|a l IH]; intros k H; [reflexivity|]. cbn [map atoms_labels]. rewrite map_app.
    rewrite rename_atom_labels by (intros s ->; apply H; left; auto). rewrite IH by (intros s Hs; apply H; right; auto).
    replace (nbig [rename_atom f a]) with (nbig [a]) by (destruct a; reflexivity). reflexivity.
  Qed.
  Lemma rename_groups dots e ex : forall k, (forall s, In (AName s) (atoms ex) -> In s N) ->
    groups dots e k (rename f ex) = map (map (rho_name f)) (groups dots e k ex).
  Proof.
    induction ex as [|i ex IH]; intros k H; [reflexivity|]. cbn [rename map groups]. rewrite map_app. fold (rename f ex).
    rewrite IH by (intros s Hs; apply H; unfold atoms; cbn [flat_map]; apply in_or_app; right; exact Hs).
    assert (Hi : forall s, In (AName s) (item_atoms i) -> In s N) by (intros s Hs; apply H; unfold atoms; cbn [flat_map]; apply in_or_app; left; auto).
    destruct i as [a|l]; cbn [on_atoms item_atoms item_groups].
    - replace (nbig [rename_atom f a]) with (nbig [a]) by (destruct a; reflexivity). f_equal.
      assert (Ha : forall s, a = AName s -> In s N) by (intros s ->; apply Hi; left; auto).
      rewrite rename_stands, rename_atom_labels by auto. destruct (stands_for_dots dots a); [|reflexivity].
      rewrite !map_map. reflexivity.
    - rewrite nbig_on by (intros []; reflexivity). f_equal. rewrite rename_atoms_labels by auto. reflexivity.
  Qed.
  Lemma rename_grouped ex : (forall s, In (AName s) (atoms ex) -> In s N) -> existsb grouped_ell (rename f ex) = existsb grouped_ell ex.
  Proof.
    induction ex as [|i ex IH]; intros H; [reflexivity|]. cbn [rename map existsb]. fold (rename f ex).
    rewrite IH by (intros s Hs; apply H; unfold atoms; cbn [flat_map]; apply in_or_app; right; exact Hs). f_equal.
    assert (Hi : forall s, In (AName s) (item_atoms i) -> In s N) by (intros s Hs; apply H; unfold atoms; cbn [flat_map]; apply in_or_app; left; auto).
    destruct i as [a|l]; [reflexivity|]. cbn [on_atoms grouped_ell item_atoms] in *.
    clear IH H. induction l as [|a l IHl]; [reflexivity|]. cbn [map existsb]. rewrite IHl by (intros s Hs; apply Hi; right; auto).
    f_equal. destruct a as [s|n|]; try reflexivity. cbn. apply f_ell, Hi. left; auto.
  Qed.
End Rename.

Lemma dict_get_none {V} (d : list (pystr * V)) s : ~ In s (map fst d) -> dict_get str_eqb s d = None.
Proof.
  induction d as [|[t v] d IH]; intros H; [reflexivity|]. cbn [dict_get map fst In] in *.
  destruct (str_eqb s t) eqn:E; [apply str_eqb_eq in E; subst; tauto|]. apply IH. tauto.
Qed.
Lemma names_of_atoms ex s : In (AName s) (atoms ex) -> In s (keys ex).
Proof. intros H. exact (key_of_atom _ _ H s eq_refl). Qed.

Section RenameCall.
  Context {A : Type} (U : unicode) (HU : unicode_ok U) (o : orders) (Ho : orders_ok o) (lib : bool).
  Context (reduce_ : tensor A -> list nat -> result (tensor A)).
  Context (add_ : tensor A -> nat -> list (nat * Z) -> result (tensor A)).

  Lemma env0_rename f sizes s : renaming f (s :: map fst sizes) -> env0 (rename_sizes f sizes) (AxName (f s)) = env0 sizes (AxName s).
  Proof.
    intros Hf. cbn. assert (E : dict_get str_eqb (f s) (rename_sizes f sizes) = dict_get str_eqb s sizes); [|rewrite E; reflexivity].
    destruct Hf as [_ Hi]. revert Hi. induction sizes as [|[t z] sizes IH]; intros Hi; [reflexivity|]. cbn [rename_sizes map dict_get].
    fold (rename_sizes f sizes). rewrite IH.
    - assert (E : str_eqb (f s) (f t) = str_eqb s t); [|rewrite E; reflexivity].
      destruct (str_eqb s t) eqn:E; [apply str_eqb_eq in E; subst; apply str_eqb_refl|].
      destruct (str_eqb (f s) (f t)) eqn:E'; auto. apply str_eqb_eq, Hi in E'; [subst; rewrite str_eqb_refl in E; discriminate|cbn; auto|cbn; auto].
    - intros a b Ha Hb. apply Hi; cbn in *; tauto.
  Qed.
  Lemma rename_fst f sizes : map fst (rename_sizes f sizes) = map f (map fst sizes).
  Proof. unfold rename_sizes. rewrite !map_map. apply map_ext. intros [s z]. reflexivity. Qed.
  Lemma renaming_incl f N M : incl M N -> renaming f N -> renaming f M.
  Proof. intros H [H1 H2]. split; auto. intros s t Hs Ht. apply H2; cbn in *; intuition auto. Qed.
  Lemma renaming_NoDup f N l : renaming f N -> incl l N -> NoDup l -> NoDup (map f l).
  Proof. intros [_ H] Hl Hn. apply NoDup_map_inj; auto. intros a b Ha Hb. apply H; right; auto. Qed.

  Lemma rename_core p p' op sizes f L R (x : tensor A) : reads U p L R -> reads U p' (rename f L) (rename f R) ->
    NoDup (map fst sizes) -> renaming f (keys L ++ keys R ++ map fst sizes) ->
    core_call U o lib reduce_ add_ p op sizes x = core_call U o lib reduce_ add_ p' op (rename_sizes f sizes) x.
  Proof.
    intros Hr Hr' Hn Hf. set (N := keys L ++ keys R ++ map fst sizes) in *.
    assert (IL : incl (keys L) N) by (intros s Hs; apply in_or_app; auto).
    assert (IR : incl (keys R) N) by (intros s Hs; apply in_or_app; right; apply in_or_app; auto).
    assert (IS : incl (map fst sizes) N) by (intros s Hs; apply in_or_app; right; apply in_or_app; auto).
    assert (Hn' : NoDup (map fst (rename_sizes f sizes))) by (rewrite rename_fst; eapply renaming_NoDup; eauto).
    assert (GL : forall dots e k, groups dots e k (rename f L) = map (map (rho_name f)) (groups dots e k L)).
    { intros. apply (rename_groups f N Hf). intros s Hs. apply IL, names_of_atoms, Hs. }
    assert (GR : forall dots e k, groups dots e k (rename f R) = map (map (rho_name f)) (groups dots e k R)).
    { intros. apply (rename_groups f N Hf). intros s Hs. apply IR, names_of_atoms, Hs. }
    assert (Hfo : forall w e, front_ok w (rename f L) (rename f R) (map fst (rename_sizes f sizes)) (length (shp x)) e <->
                              front_ok w L R (map fst sizes) (length (shp x)) e).
    { intros w e. unfold front_ok. rewrite rename_fst, !rename_dots.
      assert (E1 : ident_ok w (rename f L) (rename f R) (map f (map fst sizes)) <-> ident_ok w L R (map fst sizes)).
      { destruct w; cbn [ident_ok]; rewrite ?rename_numbers, ?(rename_keys f N Hf), <- ?map_app.
        - rewrite !(f_incl f N Hf) by auto. reflexivity.
        - rewrite !(f_incl f N Hf) by (auto; apply incl_app; auto). reflexivity.
        - rewrite (f_incl f N Hf) by auto. reflexivity. }
      assert (E2 : no_grouped (rename f L) <-> no_grouped L).
      { unfold no_grouped. rewrite rename_dots, (rename_grouped f N Hf); [reflexivity|]. intros s Hs. apply IL, names_of_atoms, Hs. }
      assert (E3 : rank_fits (rename f L) (length (shp x)) e <-> rank_fits L (length (shp x)) e).
      { unfold rank_fits. rewrite rename_dots. unfold rename. rewrite map_length. reflexivity. }
      tauto. }
    apply (core_call_sim U HU o o Ho Ho lib reduce_ add_ p p' op sizes (rename_sizes f sizes) x L R (rename f L) (rename f R) (rho_name f)); auto.
    intros w Hw. destruct (front_dec w L R (map fst sizes) (length (shp x))) as [[e He]|Hno].
    2:{ right. split; auto. intros e He. apply Hfo in He. exact (Hno e He). }
    left. exists e, e. split; auto. split; [apply Hfo; auto|].
    assert (Hodd : odd_pattern (rename f L) (rename f R) <-> odd_pattern L R).
    { unfold odd_pattern. rewrite !rename_dots, (rename_keys f N Hf).
      assert (E : In ell_name (map f (keys R)) <-> In ell_name (keys R)).
      { split; intros H.
        - apply in_map_iff in H as [s [E Hs]]. replace ell_name with s; auto. apply (proj2 Hf); [right; apply IR; auto|left; auto|].
          rewrite E. symmetry. apply (proj1 Hf).
        - apply in_map_iff. exists ell_name. split; [apply (proj1 Hf)|auto]. }
      tauto. }
    assert (Hng : names_good L R (map fst sizes) <-> names_good (rename f L) (rename f R) (map fst (rename_sizes f sizes))).
    { unfold names_good. rewrite rename_fst, !(rename_keys f N Hf), <- map_app. split; intros H s Hs.
      - apply in_map_iff in Hs as [t [<- Ht]]. destruct (H t Ht) as [H1 H2]. split; [|apply in_map; auto].
        intros E. apply H1. apply str_eqb_eq. rewrite <- (f_ell f N Hf) by (apply IS; auto). apply str_eqb_eq; auto.
      - destruct (H (f s) (in_map _ _ _ Hs)) as [H1 H2]. split.
        + intros ->. apply H1. apply (proj1 Hf).
        + apply (proj1 (f_in f N Hf s (keys L ++ keys R) (IS s Hs) (incl_app IL IR)) H2). }
    split; [exact Hng|].
    split.
    { destruct (Nat.eq_dec e 0) as [E0|E0]; [left; auto|].
      destruct (Bool.bool_dec (has_dots L && negb (has_dots R) && str_mem ell_name (keys R)) true) as [E|E].
      - right. apply andb_true_iff in E as [E E3]. apply andb_true_iff in E as [E1 E2]. apply negb_true_iff in E2. apply str_mem_In in E3.
        assert (odd_pattern L R) by (split; auto). tauto.
      - left. assert (Hno : ~ odd_pattern L R).
        { intros [E1 [E2 E3]]. apply E. rewrite E1, E2. apply str_mem_In in E3. rewrite E3. reflexivity. }
        tauto. }
    unfold left_groups, right_groups. rewrite !rename_dots, (rename_nbig f).
    split; [apply GL|]. split; [apply GR|].
    assert (Hlab : forall a s, In a (concat (groups (has_dots L) e 0 L) ++ concat (groups (has_dots L) e (nbig (atoms L)) R)) ->
                               a = LName s -> In s N).
    { intros a s Ha ->. apply in_app_or in Ha as [Ha|Ha]; apply in_labels in Ha as [Ha _]; auto. }
    split.
    { intros a b Ha Hb E. destruct a as [s|i|j n], b as [t|i'|j' n']; cbn in E; try discriminate; auto.
      inversion E as [E1]. f_equal. apply (proj2 Hf); [right; exact (Hlab _ s Ha eq_refl)|right; exact (Hlab _ t Hb eq_refl)|exact E1]. }
    intros Hgood a Ha. destruct a as [s|i|j n]; cbn [rho_name unknown axis_of]; auto.
    - pose proof (Hlab _ s Ha eq_refl) as Hs. split.
      + rewrite rename_fst, (f_mem f N Hf) by auto. reflexivity.
      + apply env0_rename. eapply renaming_incl; [|exact Hf]. intros t [<-|Ht]; auto.
    - split; auto. unfold ell_axis. cbn [env0].
      assert (Hp : forall t, In t (keys L ++ keys R) -> plain_name U t).
      { intros t Ht. apply in_app_or in Ht as [Ht|Ht]; [exact (key_plain_L U p L R Hr t Ht)|exact (key_plain_R U p L R Hr t Ht)]. }
      assert (Hp' : forall t, In t (keys (rename f L) ++ keys (rename f R)) -> plain_name U t).
      { intros t Ht. apply in_app_or in Ht as [Ht|Ht]; [exact (key_plain_L U p' _ _ Hr' t Ht)|exact (key_plain_R U p' _ _ Hr' t Ht)]. }
      rewrite !dict_get_none; auto.
      + intros X. apply Hgood in X as [_ X]. apply Hp in X. exact (name_not_ell_axis U _ i HU X eq_refl).
      + intros X. apply (proj1 Hng Hgood) in X as [_ X]. apply Hp' in X. exact (name_not_ell_axis U _ i HU X eq_refl).
  Qed.
End RenameCall.

(** ** the ellipsis written out *)
Definition rho_dots (fs : list pystr) (a : label) : label := match a with LDots i => LName (nth i fs []) | _ => a end.

Lemma atoms_open fs ex : atoms (open_dots fs ex) = flat_map (open_atom fs) (atoms ex).
Proof.
  unfold atoms, open_dots. induction ex as [|i ex IH]; [reflexivity|]. cbn [flat_map]. rewrite flat_map_app, flat_map_app, IH. f_equal.
  destruct i as [a|l]; cbn [open_item item_atoms flat_map].
  - rewrite app_nil_r. induction (open_atom fs a) as [|b m IHm]; [reflexivity|]. cbn [map flat_map item_atoms app]. rewrite IHm. reflexivity.
  - rewrite app_nil_r. reflexivity.
Qed.
Lemma nbig_names fs : nbig (map AName fs) = 0.
Proof. induction fs as [|s fs IH]; [reflexivity|]. exact IH. Qed.
Lemma nbig_open fs l : nbig (flat_map (open_atom fs) l) = nbig l.
Proof.
  induction l as [|a l IH]; [reflexivity|]. cbn [flat_map]. rewrite nbig_app, nbig_cons, IH. f_equal.
  destruct a; try reflexivity. apply nbig_names.
Qed.
Lemma open_keys fs ex s : plain ex ->
  (In s (keys (open_dots fs ex)) <-> (In s (keys ex) /\ s <> ell_name) \/ (has_dots ex = true /\ In s fs)).
Proof.
  intros Hp. unfold keys. rewrite atoms_open. unfold plain, has_dots in *. revert Hp. generalize (atoms ex) as l. intros l Hp.
  split; intros H.
  - apply in_flat_map in H as [b [Hb Hs]]. apply in_flat_map in Hb as [a [Ha Hb]]. destruct a as [t|n|]; cbn in Hb.
    + destruct Hb as [<-|[]]. destruct Hs as [<-|[]]. left. split.
      * apply in_flat_map. exists (AName t). split; [auto|left; auto].
      * intros ->. auto.
    + destruct Hb as [<-|[]]. destruct Hs.
    + apply in_map_iff in Hb as [t [<- Ht]]. destruct Hs as [<-|[]]. right. split; [|auto].
      apply existsb_exists. exists ADots. auto.
  - destruct H as [[H Hs]|[H Hs]].
    + apply in_flat_map in H as [a [Ha H]]. destruct a as [t|n|]; cbn in H; [|destruct H|destruct H as [<-|[]]; congruence].
      destruct H as [<-|[]]. apply in_flat_map. exists (AName t). split; [|left; auto]. apply in_flat_map. exists (AName t). split; [auto|left; auto].
    + apply existsb_exists in H as [a [Ha H]]. destruct a; try discriminate. apply in_flat_map. exists (AName s). split; [|left; auto].
      apply in_flat_map. exists ADots. split; auto. apply in_map, Hs.
Qed.
Lemma open_no_dots fs ex : has_dots (open_dots fs ex) = false.
Proof.
  unfold has_dots. rewrite atoms_open. destruct (existsb _ _) eqn:E; auto. apply existsb_exists in E as [a [Ha E]].
  apply in_flat_map in Ha as [b [_ Ha]]. destruct a; try discriminate. destruct b; cbn in Ha; try (destruct Ha as [Ha|[]]; discriminate).
  apply in_map_iff in Ha as [t [Ht _]]. discriminate.
Qed.
Lemma open_numbers fs ex : has_numbers (open_dots fs ex) = has_numbers ex.
Proof.
  unfold has_numbers. rewrite atoms_open. induction (atoms ex) as [|a l IH]; [reflexivity|]. cbn [flat_map existsb]. rewrite existsb_app, IH.
  f_equal. destruct a; cbn; try reflexivity; try apply orb_false_r. clear IH. induction fs as [|t fs IHf]; [reflexivity|exact IHf].
Qed.

Lemma map_nth_seq' {B} (d : B) l : map (fun i => nth i l d) (seq 0 (length l)) = l.
Proof.
  induction l as [|x l IH]; [reflexivity|]. cbn [length seq map nth]. f_equal. rewrite <- seq_shift, map_map. exact IH.
Qed.
Lemma nth_names fs : map (fun s => LName s) fs = map (fun i => rho_dots fs (LDots i)) (seq 0 (length fs)).
Proof.
  cbn [rho_dots]. transitivity (map LName (map (fun i => nth i fs []) (seq 0 (length fs)))); [|rewrite map_map; reflexivity].
  f_equal. symmetry. apply map_nth_seq'.
Qed.

Lemma open_atom_labels fs k a : (a <> AName ell_name) ->
  atoms_labels false 0 k (open_atom fs a) = map (rho_dots fs) (atom_labels true (length fs) k a).
Proof.
  intros Ha. destruct a as [s|n|].
  - cbn. destruct (str_eqb s ell_name) eqn:E; [apply str_eqb_eq in E; subst; congruence|]. unfold atom_labels. cbn. rewrite E. reflexivity.
  - cbn. unfold atom_labels. cbn. destruct (n =? 1)%Z; reflexivity.
  - unfold atom_labels. cbn [stands_for_dots open_atom]. rewrite map_map, <- nth_names.
    revert k. induction fs as [|s fs IH]; intros k; [reflexivity|]. cbn [map atoms_labels]. unfold atom_labels at 1. cbn. f_equal. apply IH.
Qed.
Lemma open_atoms_labels fs l : forall k, ~ In (AName ell_name) l ->
  atoms_labels false 0 k (flat_map (open_atom fs) l) = map (rho_dots fs) (atoms_labels true (length fs) k l).
Proof.
  induction l as [|a l IH]; intros k H; [reflexivity|]. cbn [flat_map atoms_labels]. rewrite atoms_labels_app, map_app.
  rewrite open_atom_labels by (intros ->; apply H; left; auto). f_equal.
  rewrite IH by (intros X; apply H; right; auto). f_equal. f_equal. f_equal.
  destruct a; try reflexivity. apply nbig_names.
Qed.
Lemma groups_app dots e ex1 : forall k ex2, groups dots e k (ex1 ++ ex2) = groups dots e k ex1 ++ groups dots e (k + nbig (atoms ex1)) ex2.
Proof.
  induction ex1 as [|i ex1 IH]; intros k ex2; cbn [app groups].
  - f_equal. cbn. lia.
  - rewrite IH, app_assoc. do 2 f_equal. unfold atoms. cbn [flat_map]. rewrite nbig_app. lia.
Qed.
Lemma open_groups fs ex : forall k, plain ex ->
  groups false 0 k (open_dots fs ex) = map (map (rho_dots fs)) (groups true (length fs) k ex).
Proof.
  induction ex as [|i ex IH]; intros k H; [reflexivity|]. unfold open_dots. cbn [flat_map groups]. fold (open_dots fs ex).
  unfold plain in H. unfold atoms in H. cbn [flat_map] in H. rewrite groups_app, map_app.
  assert (Hi : ~ In (AName ell_name) (item_atoms i)) by (intros X; apply H, in_or_app; auto).
  assert (Hx : plain ex) by (intros X; apply H, in_or_app; auto).
  rewrite (IH _ Hx). f_equal.
  - destruct i as [a|l]; cbn [open_item item_groups item_atoms] in *.
    + assert (Ha : a <> AName ell_name) by (intros ->; apply Hi; left; auto).
      destruct a as [s|n|].
      * cbn. destruct (str_eqb s ell_name) eqn:E; [apply str_eqb_eq in E; subst; congruence|]. unfold atom_labels. cbn. rewrite E. reflexivity.
      * cbn. unfold atom_labels. cbn. destruct (n =? 1)%Z; reflexivity.
      * cbn [stands_for_dots open_atom]. unfold atom_labels. cbn [stands_for_dots]. rewrite !map_map. cbn [map].
        transitivity (map (fun x => [x]) (map (fun s => LName s) fs)); [|rewrite nth_names, map_map; reflexivity].
        rewrite map_map. clear. revert k. induction fs as [|s fs IHf]; intros k; [reflexivity|]. cbn [map groups item_groups stands_for_dots andb].
        unfold atom_labels at 1. cbn [stands_for_dots andb app]. f_equal. apply IHf.
    + cbn [groups item_groups]. rewrite open_atoms_labels by exact Hi. reflexivity.
  - f_equal. f_equal. f_equal. destruct i as [a|l]; cbn [open_item item_atoms].
    + destruct a; try reflexivity. cbn [open_atom]. rewrite map_map. clear. induction fs as [|s fs IHf]; [reflexivity|exact IHf].
    + unfold atoms. cbn [flat_map item_atoms]. rewrite app_nil_r. apply nbig_open.
Qed.

Section OpenCall.
  Context {A : Type} (U : unicode) (HU : unicode_ok U) (o : orders) (Ho : orders_ok o) (lib : bool).
  Context (reduce_ : tensor A -> list nat -> result (tensor A)).
  Context (add_ : tensor A -> nat -> list (nat * Z) -> result (tensor A)).

  Lemma open_core p p' op sizes fs L R (x : tensor A) :
    reads U p L R -> reads U p' (open_dots fs L) (open_dots fs R) -> NoDup (map fst sizes) ->
    plain L -> plain R -> has_dots L = true -> ~ grouped_dots L -> rank_fits L (length (shp x)) (length fs) ->
    (forall s, In s fs -> ~ In s (keys L ++ keys R ++ map fst sizes)) ->
    (has_dots R = true \/ fs <> [] \/ op_role op = Some Reducing) ->
    core_call U o lib reduce_ add_ p op sizes x = core_call U o lib reduce_ add_ p' op sizes x.
  Proof.
    intros Hr Hr' Hn PL PR HL Hg Hk Hfr Hcond.
    pose proof (open_keys fs L) as KL. pose proof (open_keys fs R) as KR.
    assert (EL : In ell_name (keys L)) by (apply has_dots_key; auto).
    assert (ER : In ell_name (keys R) <-> has_dots R = true) by (split; [apply plain_key; auto|apply has_dots_key]).
    assert (F1 : forall s, In s fs -> ~ In s (keys L)) by (intros s Hs X; apply (Hfr s Hs), in_or_app; auto).
    assert (F2 : forall s, In s fs -> ~ In s (keys R)) by (intros s Hs X; apply (Hfr s Hs), in_or_app; right; apply in_or_app; auto).
    assert (F3 : forall s, In s fs -> ~ In s (map fst sizes)) by (intros s Hs X; apply (Hfr s Hs), in_or_app; right; apply in_or_app; auto).
    assert (Hng0 : no_grouped L).
    { apply no_grouped_iff; auto. eapply keys_NoDup_L; eauto. }
    assert (GL : left_groups 0 (open_dots fs L) = map (map (rho_dots fs)) (left_groups (length fs) L)).
    { unfold left_groups. rewrite open_no_dots, HL. apply open_groups; auto. }
    assert (GR : right_groups 0 (open_dots fs L) (open_dots fs R) = map (map (rho_dots fs)) (right_groups (length fs) L R)).
    { unfold right_groups. rewrite open_no_dots, HL, atoms_open, nbig_open. apply open_groups; auto. }
    assert (Hk' : rank_fits (open_dots fs L) (length (shp x)) 0).
    { unfold rank_fits. rewrite open_no_dots. split; [|reflexivity].
      pose proof (groups_count U p L R (length fs) _ Hr Hng0 Hk) as E. rewrite <- E.
      rewrite <- (map_length (map (rho_dots fs))), <- GL. unfold left_groups. rewrite open_no_dots. rewrite groups_length_plain by apply open_no_dots. reflexivity. }
    assert (Hid : forall w, op_role op = Some w -> (ident_ok w L R (map fst sizes) <-> ident_ok w (open_dots fs L) (open_dots fs R) (map fst sizes))).
    { intros w Hw. destruct w; cbn [ident_ok]; rewrite ?open_numbers.
      - assert (I1 : incl (keys L) (keys R) <-> incl (keys (open_dots fs L)) (keys (open_dots fs R))).
        { split; intros H s Hs.
          - apply KR; auto. apply KL in Hs as [[Hs Hne]|[_ Hs]]; auto. right. split; auto. apply ER, H, EL.
          - destruct (str_eq_dec s ell_name) as [->|Hne].
            + apply ER. destruct Hcond as [Hc|[Hc|Hc]]; [exact Hc| |congruence]. destruct fs as [|t fs']; [congruence|].
              assert (X : In t (keys (open_dots (t :: fs') R))) by (apply H, KL; auto; right; split; auto; left; auto).
              apply KR in X as [[X _]|[X _]]; auto. exfalso. apply (F2 t); auto. left; auto.
            + assert (X : In s (keys (open_dots fs R))) by (apply H, KL; auto).
              apply KR in X as [[X _]|[X Hs']]; auto. exfalso. exact (F1 s Hs' Hs). }
        assert (I2 : incl (keys R) (keys L) <-> incl (keys (open_dots fs R)) (keys (open_dots fs L))).
        { split; intros H s Hs.
          - apply KL; auto. apply KR in Hs as [[Hs Hne]|[_ Hs]]; auto.
          - destruct (str_eq_dec s ell_name) as [->|Hne]; auto.
            assert (X : In s (keys (open_dots fs L))) by (apply H, KR; auto).
            apply KL in X as [[X _]|[_ Hs']]; auto. exfalso. exact (F2 s Hs' Hs). }
        tauto.
      - assert (I1 : incl (keys L) (keys R) <-> incl (keys (open_dots fs L)) (keys (open_dots fs R))).
        { split; intros H s Hs.
          - apply KR; auto. apply KL in Hs as [[Hs Hne]|[_ Hs]]; auto. right. split; auto. apply ER, H, EL.
          - destruct (str_eq_dec s ell_name) as [->|Hne].
            + apply ER. destruct Hcond as [Hc|[Hc|Hc]]; [exact Hc| |congruence]. destruct fs as [|t fs']; [congruence|].
              assert (X : In t (keys (open_dots (t :: fs') R))) by (apply H, KL; auto; right; split; auto; left; auto).
              apply KR in X as [[X _]|[X _]]; auto. exfalso. apply (F2 t); auto. left; auto.
            + assert (X : In s (keys (open_dots fs R))) by (apply H, KL; auto).
              apply KR in X as [[X _]|[X Hs']]; auto. exfalso. exact (F1 s Hs' Hs). }
        assert (I2 : incl (keys R) (keys L ++ map fst sizes) <-> incl (keys (open_dots fs R)) (keys (open_dots fs L) ++ map fst sizes)).
        { split; intros H s Hs; apply in_or_app.
          - apply KR in Hs as [[Hs Hne]|[_ Hs]]; auto; [|left; apply KL; auto].
            apply H, in_app_or in Hs as [Hs|Hs]; auto. left. apply KL; auto.
          - destruct (str_eq_dec s ell_name) as [->|Hne]; auto.
            assert (X : In s (keys (open_dots fs L) ++ map fst sizes)) by (apply H, KR; auto).
            apply in_app_or in X as [X|X]; auto.
            apply KL in X as [[X _]|[_ Hs']]; auto. exfalso. exact (F2 s Hs' Hs). }
        tauto.
      - assert (I2 : incl (keys R) (keys L) <-> incl (keys (open_dots fs R)) (keys (open_dots fs L))).
        { split; intros H s Hs.
          - apply KL; auto. apply KR in Hs as [[Hs Hne]|[_ Hs]]; auto.
          - destruct (str_eq_dec s ell_name) as [->|Hne]; auto.
            assert (X : In s (keys (open_dots fs L))) by (apply H, KR; auto).
            apply KL in X as [[X _]|[_ Hs']]; auto. exfalso. exact (F2 s Hs' Hs). }
        tauto. }
    apply (core_call_sim U HU o o Ho Ho lib reduce_ add_ p p' op sizes sizes x L R (open_dots fs L) (open_dots fs R) (rho_dots fs)); auto.
    intros w Hw. specialize (Hid w Hw).
    destruct (ident_dec w L R (map fst sizes)) as [Hi|Hi].
    2:{ right. unfold front_ok. split; intros e [H _]; tauto. }
    left. exists (length fs), 0. split; [repeat split; auto|]. split.
    { repeat split; auto; [tauto| |]; unfold no_grouped; rewrite !open_no_dots; discriminate. }
    split.
    { unfold names_good. split; intros H s Hs; destruct (H s Hs) as [H1 H2]; split; auto; apply in_or_app.
      - apply in_app_or in H2 as [H2|H2]; [left; apply KL; auto|right; apply KR; auto].
      - apply in_app_or in H2 as [H2|H2]; [apply KL in H2 as [[H2 _]|[_ H2]]|apply KR in H2 as [[H2 _]|[_ H2]]]; auto; exfalso; exact (F3 s H2 Hs). }
    split.
    { left. split; intros [H1 [H2 H3]].
      - exfalso. apply ER in H3. congruence.
      - rewrite open_no_dots in H1. discriminate. }
    split; [exact GL|]. split; [exact GR|].
    assert (Hlab : forall a, In a (concat (left_groups (length fs) L) ++ concat (right_groups (length fs) L R)) ->
              match a with LName s => ~ In s fs | LDots i => i < length fs | LNum _ _ => True end).
    { intros a Ha. unfold left_groups, right_groups in Ha. apply in_app_or in Ha as [Ha|Ha]; apply in_labels in Ha; destruct a; auto; try apply Ha.
      - destruct Ha as [Ha _]. intros X. exact (F1 s X Ha).
      - destruct Ha as [Ha _]. intros X. exact (F2 s X Ha). }
    assert (Hfs : NoDup fs).
    { pose proof (keys_NoDup_L U p' _ _ Hr') as H. unfold keys in H. rewrite atoms_open in H. clear -H HL.
      unfold has_dots in HL. apply existsb_exists in HL as [a [Ha E]]. destruct a; try discriminate.
      apply in_split in Ha as [l1 [l2 El]]. rewrite El in H. rewrite !flat_map_app in H. cbn [flat_map open_atom] in H.
      rewrite flat_map_app in H. apply NoDup_app_iff in H as [_ [H _]]. apply NoDup_app_iff in H as [H _].
      assert (E2 : flat_map atom_key (map AName fs) = fs) by (clear; induction fs as [|s fs IH]; [reflexivity|cbn; f_equal; exact IH]).
      rewrite E2 in H. exact H. }
    split.
    { intros a b Ha Hb E. apply Hlab in Ha, Hb. destruct a as [s|i|j n], b as [t|i'|j' n']; cbn in E; try discriminate; auto.
      - inversion E. subst s. exfalso. apply Ha. apply nth_In; auto.
      - inversion E. subst t. exfalso. apply Hb. apply nth_In; auto.
      - inversion E as [E1]. f_equal. eapply (proj1 (NoDup_nth fs [])); eauto. }
    intros Hgood a Ha. destruct a as [s|i|j n]; cbn [rho_dots]; auto. cbn [unknown axis_of]. apply Hlab in Ha.
    assert (Hnot : ~ In (nth i fs []) (map fst sizes)) by (apply F3, nth_In; auto).
    split.
    { destruct (str_mem (nth i fs []) (map fst sizes)) eqn:E; auto. apply str_mem_In in E. contradiction. }
    unfold ell_axis. cbn [env0]. rewrite !dict_get_none; auto.
    intros X. apply Hgood in X as [_ X].
    assert (Hp : plain_name U (ellipsis_str ++ str_of_nat i)).
    { apply in_app_or in X as [X|X]; [exact (key_plain_L U p L R Hr _ X)|exact (key_plain_R U p L R Hr _ X)]. }
    exact (name_not_ell_axis U _ i HU Hp eq_refl).
  Qed.
End OpenCall.

(** ** a number instead of a name *)
Definition atom_eq : forall a b : atom, {a = b} + {a <> b}.
Proof. decide equality; [apply str_eq_dec|apply Z.eq_dec]. Defined.
Section Number.
  Context (s : pystr) (n : Z) (Hn2 : (2 <= n)%Z) (Hs : s <> ell_name).
  Definition rho_num (K : nat) (a : label) : label :=
    match a with
    | LName t => if str_eqb t s then LNum K n else a
    | LNum j m => LNum (if j <? K then j else S j) m
    | LDots _ => a
    end.
  Notation num := (number_atom s n).

  Lemma num_other a : a <> AName s -> num a = a.
  Proof. intros H. destruct a as [t| |]; auto. cbn. destruct (str_eqb t s) eqn:E; auto. apply str_eqb_eq in E. congruence. Qed.
  Lemma num_same : num (AName s) = ANum n.
  Proof. cbn. rewrite str_eqb_refl. reflexivity. Qed.
  Lemma num_others l : ~ In (AName s) l -> map num l = l.
  Proof.
    induction l as [|a l IH]; intros H; [reflexivity|]. cbn [map]. rewrite num_other by (intros ->; apply H; left; auto).
    f_equal. apply IH. intros X. apply H. right; auto.
  Qed.
  Lemma num_stands dots a : stands_for_dots dots (num a) = stands_for_dots dots a.
  Proof.
    destruct a as [t| |]; auto. cbn. destruct (str_eqb t s) eqn:E; auto. apply str_eqb_eq in E. subst t. cbn.
    destruct (str_eqb s ell_name) eqn:E; [apply str_eqb_eq in E; congruence|]. rewrite andb_false_r. reflexivity.
  Qed.
  Lemma rho_dots_id K e : map (rho_num K) (map LDots (seq 0 e)) = map LDots (seq 0 e).
  Proof. rewrite map_map. reflexivity. Qed.

  (** before the name *)
  Lemma before_atoms dots e K l : forall k, ~ In (AName s) l -> k + nbig l <= K ->
    atoms_labels dots e k l = map (rho_num K) (atoms_labels dots e k l).
  Proof.
    intros k H1 H2. rewrite <- (map_id (atoms_labels dots e k l)) at 1. apply map_ext_in. intros a Ha. apply in_atoms_labels in Ha.
    destruct a as [t|i|j m]; cbn [rho_num]; auto.
    - destruct (str_eqb t s) eqn:E; auto. apply str_eqb_eq in E. subst. destruct Ha. contradiction.
    - destruct (j <? K) eqn:E; auto. apply Nat.ltb_ge in E. lia.
  Qed.
  Lemma before_groups dots e K ex : forall k, ~ In (AName s) (atoms ex) -> k + nbig (atoms ex) <= K ->
    groups dots e k ex = map (map (rho_num K)) (groups dots e k ex).
  Proof.
    intros k H1 H2. rewrite <- (map_id (groups dots e k ex)) at 1. apply map_ext_in. intros g Hg.
    rewrite <- (map_id g) at 1. apply map_ext_in. intros a Ha.
    assert (X : In a (concat (groups dots e k ex))) by (apply in_concat; eauto). rewrite concat_groups in X. apply in_atoms_labels in X.
    destruct a as [t|i|j m]; cbn [rho_num]; auto.
    - destruct (str_eqb t s) eqn:E; auto. apply str_eqb_eq in E. subst. destruct X. contradiction.
    - destruct (j <? K) eqn:E; auto. apply Nat.ltb_ge in E. lia.
  Qed.
  (** after it *)
  Lemma after_atom dots e K k a : a <> AName s -> K <= k -> atom_labels dots e (S k) a = map (rho_num K) (atom_labels dots e k a).
  Proof.
    intros H1 H2. unfold atom_labels. destruct (stands_for_dots dots a); [rewrite rho_dots_id; reflexivity|].
    destruct a as [t|m|]; auto.
    - cbn [map rho_num]. destruct (str_eqb t s) eqn:E; auto. apply str_eqb_eq in E. congruence.
    - destruct (m =? 1)%Z; auto. cbn [map rho_num]. destruct (k <? K) eqn:E; auto. apply Nat.ltb_lt in E. lia.
  Qed.
  Lemma after_atoms dots e K l : forall k, ~ In (AName s) l -> K <= k ->
    atoms_labels dots e (S k) l = map (rho_num K) (atoms_labels dots e k l).
  Proof.
    induction l as [|a l IH]; intros k H1 H2; [reflexivity|]. cbn [atoms_labels]. rewrite map_app.
    rewrite <- after_atom by (auto; intros ->; apply H1; left; auto). f_equal.
    rewrite <- IH by (lia || (intros X; apply H1; right; auto)). reflexivity.
  Qed.
  Lemma after_groups dots e K ex : forall k, ~ In (AName s) (atoms ex) -> K <= k ->
    groups dots e (S k) ex = map (map (rho_num K)) (groups dots e k ex).
  Proof.
    induction ex as [|i ex IH]; intros k H1 H2; [reflexivity|]. cbn [groups]. rewrite map_app.
    unfold atoms in H1. cbn [flat_map] in H1.
    assert (Hi : ~ In (AName s) (item_atoms i)) by (intros X; apply H1, in_or_app; auto).
    assert (Hx : ~ In (AName s) (atoms ex)) by (intros X; apply H1, in_or_app; auto). f_equal.
    - destruct i as [a|l]; cbn [item_groups item_atoms] in *.
      + assert (Ha : a <> AName s) by (intros ->; apply Hi; left; auto).
        rewrite (after_atom dots e K k a Ha H2). destruct (stands_for_dots dots a); [|reflexivity]. rewrite !map_map. reflexivity.
      + rewrite (after_atoms dots e K l k Hi H2). reflexivity.
    - rewrite <- IH by (lia || auto). reflexivity.
  Qed.
  (** at it *)
  Lemma big_num : nbig [num (AName s)] = 1.
  Proof. rewrite num_same. unfold nbig. cbn. destruct (n =? 1)%Z eqn:E; [apply Z.eqb_eq in E; lia|reflexivity]. Qed.
  Lemma self_labels dots e K : atom_labels dots e K (num (AName s)) = map (rho_num K) (atom_labels dots e K (AName s)).
  Proof.
    unfold atom_labels. rewrite num_stands. cbn [stands_for_dots].
    destruct (str_eqb s ell_name) eqn:E; [apply str_eqb_eq in E; congruence|]. rewrite andb_false_r. rewrite num_same. cbn.
    destruct (n =? 1)%Z eqn:E1; [apply Z.eqb_eq in E1; lia|]. rewrite str_eqb_refl. reflexivity.
  Qed.
  Lemma at_atoms dots e l : forall k, NoDup (flat_map atom_key l) -> In (AName s) l ->
    exists K, k <= K <= k + nbig l /\ nbig (map num l) = S (nbig l) /\
      atoms_labels dots e k (map num l) = map (rho_num K) (atoms_labels dots e k l).
  Proof.
    induction l as [|a l IH]; intros k Hd Hin; [destruct Hin|]. cbn [flat_map] in Hd. apply NoDup_app_iff in Hd as [_ [Hd Hdis]].
    destruct (atom_eq a (AName s)) as [->|Hne].
    - assert (Hl : ~ In (AName s) l).
      { intros X. apply (Hdis s); [left; auto|]. apply in_flat_map. exists (AName s). split; [auto|left; auto]. }
      exists k. cbn [map]. rewrite (num_others l Hl). rewrite (nbig_cons (num (AName s))), big_num. rewrite (nbig_cons (AName s) l). assert (Z0 : nbig [AName s] = 0) by reflexivity. split; [lia|]. split; [lia|].
      cbn [atoms_labels]. rewrite map_app, <- self_labels, big_num. f_equal.
      replace (k + nbig [AName s]) with k by (cbn; lia). replace (k + 1) with (S k) by lia. apply after_atoms; auto.
    - destruct Hin as [Hin|Hin]; [congruence|]. destruct (IH (k + nbig [a]) Hd Hin) as [K [HK [HN HE]]].
      exists K. cbn [map]. rewrite (num_other a Hne), (nbig_cons a l). split; [lia|]. split; [rewrite (nbig_cons a (map num l)); lia|].
      cbn [atoms_labels]. rewrite map_app, HE. f_equal.
      pose proof (before_atoms dots e K [a] k) as B. cbn [atoms_labels] in B. rewrite app_nil_r in B. apply B; [|lia].
      intros [X|[]]. congruence.
  Qed.
  Lemma at_groups dots e ex : forall k, NoDup (keys ex) -> In (AName s) (atoms ex) ->
    exists K, k <= K <= k + nbig (atoms ex) /\ nbig (atoms (number s n ex)) = S (nbig (atoms ex)) /\
      groups dots e k (number s n ex) = map (map (rho_num K)) (groups dots e k ex).
  Proof.
    induction ex as [|i ex IH]; intros k Hd Hin; [destruct Hin|].
    rewrite keys_cons in Hd. apply NoDup_app_iff in Hd as [Hd1 [Hd2 Hdis]].
    assert (Ea : atoms (i :: ex) = item_atoms i ++ atoms ex) by reflexivity. rewrite Ea in *.
    assert (En : atoms (number s n (i :: ex)) = map num (item_atoms i) ++ atoms (number s n ex)).
    { unfold number. rewrite !atoms_on. cbn [atoms flat_map]. rewrite map_app. reflexivity. }
    rewrite En, !nbig_app.
    assert (Eg : groups dots e k (number s n (i :: ex)) =
                 item_groups dots e k (on_atoms num i) ++ groups dots e (k + nbig (map num (item_atoms i))) (number s n ex)).
    { cbn [number map groups]. fold (number s n ex). do 2 f_equal. destruct i; reflexivity. }
    rewrite Eg. cbn [groups]. clear Eg En.
    destruct (in_dec atom_eq (AName s) (item_atoms i)) as [Hi|Hi].
    - assert (Hx : ~ In (AName s) (atoms ex)).
      { intros X. apply (Hdis s); [apply in_flat_map; exists (AName s); split; [auto|left; auto]|].
        unfold keys. apply in_flat_map; exists (AName s); split; [auto|left; auto]. }
      assert (Ex : number s n ex = ex).
      { clear -Hx. unfold number. induction ex as [|j ex IH]; [reflexivity|]. cbn [map]. unfold atoms in Hx. cbn [flat_map] in Hx.
        rewrite IH by (intros X; apply Hx, in_or_app; auto). f_equal. destruct j as [a|l]; cbn [on_atoms item_atoms] in *.
        - rewrite num_other; auto. intros ->. apply Hx. left; auto.
        - rewrite num_others; auto. intros X. apply Hx, in_or_app; auto. }
      rewrite Ex. destruct (at_atoms dots e (item_atoms i) k Hd1 Hi) as [K [HK [HN HE]]]. exists K.
      rewrite HN. split; [lia|]. split; [lia|]. rewrite map_app. f_equal.
      + destruct i as [a|l]; cbn [item_groups on_atoms item_atoms map] in *.
        * destruct Hi as [->|[]]. rewrite num_stands. cbn [atoms_labels] in HE. rewrite !app_nil_r in HE. rewrite HE.
          destruct (stands_for_dots dots (AName s)); [rewrite !map_map; reflexivity|reflexivity].
        * rewrite HE. reflexivity.
      + replace (k + S (nbig (item_atoms i))) with (S (k + nbig (item_atoms i))) by lia. apply after_groups; auto. lia.
    - apply in_app_or in Hin as [Hin|Hin]; [contradiction|].
      destruct (IH (k + nbig (item_atoms i)) Hd2 Hin) as [K [HK [HN HE]]]. exists K.
      rewrite (num_others _ Hi). rewrite HN. split; [lia|]. split; [lia|]. rewrite HE, map_app. f_equal.
      assert (Eo : on_atoms num i = i).
      { destruct i as [a|l]; cbn [on_atoms item_atoms] in *; f_equal; [apply num_other; intros ->; apply Hi; left; auto|apply num_others; auto]. }
      rewrite Eo. pose proof (before_groups dots e K [i] k) as B. cbn [groups] in B. rewrite app_nil_r in B. apply B.
      + unfold atoms. cbn [flat_map]. rewrite app_nil_r. exact Hi.
      + unfold atoms. cbn [flat_map]. rewrite app_nil_r. lia.
  Qed.
  Lemma number_id ex : ~ In (AName s) (atoms ex) -> number s n ex = ex.
  Proof.
    intros Hx. unfold number. induction ex as [|j ex IH]; [reflexivity|]. cbn [map]. unfold atoms in Hx. cbn [flat_map] in Hx.
    rewrite IH by (intros X; apply Hx, in_or_app; auto). f_equal. destruct j as [a|l]; cbn [on_atoms item_atoms] in *.
    - rewrite num_other; auto. intros ->. apply Hx. left; auto.
    - rewrite num_others; auto. intros X. apply Hx, in_or_app; auto.
  Qed.
  Lemma number_keys ex t : In t (keys (number s n ex)) <-> In t (keys ex) /\ t <> s.
  Proof.
    unfold keys, number. rewrite atoms_on. induction (atoms ex) as [|a l IH]; [cbn; tauto|]. cbn [map flat_map]. rewrite !in_app_iff, IH.
    assert (E : In t (atom_key (num a)) <-> In t (atom_key a) /\ t <> s); [|tauto].
    destruct a as [u|m|]; cbn.
    - destruct (str_eqb u s) eqn:E; cbn.
      + apply str_eqb_eq in E. subst u. split; [intros []|intros [[E|[]] H]; congruence].
      + split; [intros [<-|[]]; split; auto; intros ->; rewrite str_eqb_refl in E; discriminate|tauto].
    - tauto.
    - split; [intros [<-|[]]; split; auto|tauto].
  Qed.
  Lemma number_dots ex : has_dots (number s n ex) = has_dots ex.
  Proof.
    unfold has_dots, number. rewrite atoms_on. apply existsb_on. intros [t| |]; auto. cbn. destruct (str_eqb t s); reflexivity.
  Qed.
  Lemma number_grouped ex : existsb grouped_ell (number s n ex) = existsb grouped_ell ex.
  Proof.
    unfold number. apply existsb_on. intros [a|l]; [reflexivity|]. cbn. apply existsb_on. intros [t| |]; auto. cbn.
    destruct (str_eqb t s) eqn:E; auto. apply str_eqb_eq in E. subst. cbn. symmetry.
    destruct (str_eqb s ell_name) eqn:E; auto. apply str_eqb_eq in E. congruence.
  Qed.
End Number.
Section NumberCall.
  Context {A : Type} (U : unicode) (HU : unicode_ok U) (o : orders) (Ho : orders_ok o) (lib : bool).
  Context (reduce_ : tensor A -> list nat -> result (tensor A)).
  Context (add_ : tensor A -> nat -> list (nat * Z) -> result (tensor A)).

  Lemma name_key s ex : In (AName s) (atoms ex) <-> (In s (keys ex) /\ (s = ell_name -> In (AName s) (atoms ex))).
  Proof.
    split.
    - intros H. split; auto. unfold keys. apply in_flat_map. exists (AName s). split; auto. left; auto.
    - intros [H1 H2]. destruct (str_eq_dec s ell_name) as [E|E]; auto. unfold keys in H1. apply in_flat_map in H1 as [a [Ha Hs]].
      destruct a as [t|m|]; cbn in Hs; [destruct Hs as [->|[]]; auto|destruct Hs|destruct Hs as [<-|[]]; congruence].
  Qed.

  Lemma number_core p p' op sizes s n L R (x : tensor A) :
    reads U p L R -> reads U p' (number s n L) (number s n R) -> NoDup (map fst ((s, n) :: sizes)) -> (2 <= n)%Z -> s <> ell_name ->
    (In s (keys L) /\ ~ In s (keys R) /\ op_role op = Some Reducing \/
     In s (keys R) /\ ~ In s (keys L) /\ op_role op = Some Repeating) ->
    core_call U o lib reduce_ add_ p op ((s, n) :: sizes) x = core_call U o lib reduce_ add_ p' op sizes x.
  Proof.
    intros Hr Hr' Hn Hn2 Hs Hcase.
    pose proof (fun ex t => number_keys s n Hs ex t) as NK.
    assert (Hid : forall w, op_role op = Some w ->
      (ident_ok w L R (map fst ((s, n) :: sizes)) <-> ident_ok w (number s n L) (number s n R) (map fst sizes))).
    { intros w Hw. destruct Hcase as [[H1 [H2 H3]]|[H1 [H2 H3]]]; rewrite H3 in Hw; inversion Hw; subst w; cbn [ident_ok].
      - rewrite (number_id s n R) by (intros X; apply name_key in X; tauto).
        assert (E : incl (keys R) (keys L) <-> incl (keys R) (keys (number s n L))); [|tauto]. split; intros H t Ht.
        + apply NK. split; auto. intros ->. contradiction.
        + apply H, NK in Ht. tauto.
      - rewrite (number_id s n L) by (intros X; apply name_key in X; tauto).
        assert (E : incl (keys L) (keys R) <-> incl (keys L) (keys (number s n R))).
        { split; intros H t Ht.
          - apply NK. split; auto. intros ->. contradiction.
          - apply H, NK in Ht. tauto. }
        assert (E2 : incl (keys R) (keys L ++ map fst ((s, n) :: sizes)) <-> incl (keys (number s n R)) (keys L ++ map fst sizes)).
        { cbn [map fst]. split; intros H t Ht.
          - apply NK in Ht as [Ht Hne]. apply H in Ht. apply in_app_or in Ht as [Ht|[Ht|Ht]]; apply in_or_app; auto. congruence.
          - destruct (str_eq_dec t s) as [->|Hne]; [apply in_or_app; right; left; auto|].
            assert (X : In t (keys (number s n R))) by (apply NK; auto). apply H in X. apply in_app_or in X as [X|X]; apply in_or_app; auto.
            right; right; auto. }
        tauto. }
    assert (Hfo : forall w e, op_role op = Some w ->
       (front_ok w L R (map fst ((s, n) :: sizes)) (length (shp x)) e <->
        front_ok w (number s n L) (number s n R) (map fst sizes) (length (shp x)) e)).
    { intros w e Hw. unfold front_ok. rewrite !number_dots.
      assert (X1 : no_grouped (number s n L) <-> no_grouped L).
      { unfold no_grouped. rewrite number_dots, number_grouped by auto. reflexivity. }
      assert (X2 : rank_fits (number s n L) (length (shp x)) e <-> rank_fits L (length (shp x)) e).
      { unfold rank_fits. rewrite number_dots. unfold number. rewrite map_length. reflexivity. }
      specialize (Hid w Hw). tauto. }
    pose proof (keys_NoDup_L U p L R Hr) as NDL. pose proof (keys_NoDup_R U p L R Hr) as NDR.
    assert (Hw : exists w, op_role op = Some w) by (destruct Hcase as [[_ [_ H]]|[_ [_ H]]]; eauto). destruct Hw as [w Hw].
    assert (Hn' : NoDup (map fst sizes)) by (cbn in Hn; inversion Hn; auto).
    assert (Hsz : ~ In s (map fst sizes)) by (cbn in Hn; inversion Hn; auto).
    destruct (front_dec w L R (map fst ((s, n) :: sizes)) (length (shp x))) as [[e He]|Hno].
    2:{ apply (core_call_sim U HU o o Ho Ho lib reduce_ add_ p p' op ((s, n) :: sizes) sizes x L R (number s n L) (number s n R) (fun a => a)); auto.
        intros w2 Hw2. assert (w2 = w) by congruence. subst w2. right. split; auto. intros e He. apply (Hno e). apply Hfo; auto. }
    assert (HK : exists K,
        left_groups e (number s n L) = map (map (rho_num s n K)) (left_groups e L) /\
        right_groups e (number s n L) (number s n R) = map (map (rho_num s n K)) (right_groups e L R) /\
        forall j m, In (LNum j m) (concat (left_groups e L) ++ concat (right_groups e L R)) -> True).
    { unfold left_groups, right_groups. rewrite number_dots.
      destruct Hcase as [[H1 [H2 H3]]|[H1 [H2 H3]]].
      - assert (S1 : In (AName s) (atoms L)) by (apply name_key; split; auto; congruence).
        assert (S2 : ~ In (AName s) (atoms R)) by (intros X; apply name_key in X; tauto).
        destruct (at_groups s n Hn2 Hs (has_dots L) e L 0 NDL S1) as [K [HK [HN HE]]]. exists K. split; [exact HE|]. split; [|auto].
        rewrite HN, (number_id s n R S2). apply after_groups; auto. lia.
      - assert (S1 : In (AName s) (atoms R)) by (apply name_key; split; auto; congruence).
        assert (S2 : ~ In (AName s) (atoms L)) by (intros X; apply name_key in X; tauto).
        rewrite (number_id s n L S2).
        destruct (at_groups s n Hn2 Hs (has_dots L) e R (nbig (atoms L)) NDR S1) as [K [HK [HN HE]]]. exists K. split; [|split; [exact HE|auto]].
        apply before_groups; auto. cbn. lia. }
    destruct HK as [K [GL [GR _]]].
    apply (core_call_sim U HU o o Ho Ho lib reduce_ add_ p p' op ((s, n) :: sizes) sizes x L R (number s n L) (number s n R) (rho_num s n K)); auto.
    intros w2 Hw2. assert (w2 = w) by congruence. subst w2. left. exists e, e. split; auto. split; [apply Hfo; auto|].
    split.
    { unfold names_good. cbn [map fst]. split; intros H t Ht.
      - destruct (H t (or_intror Ht)) as [H1 H2]. split; auto. apply in_app_or in H2. apply in_or_app.
        assert (t <> s) by (intros ->; contradiction). destruct H2 as [H2|H2]; [left|right]; apply NK; auto.
      - destruct Ht as [<-|Ht].
        + split; auto. apply in_or_app. tauto.
        + destruct (H t Ht) as [H1 H2]. split; auto. apply in_app_or in H2. apply in_or_app.
          destruct H2 as [H2|H2]; apply NK in H2; tauto. }
    assert (Hodd : odd_pattern (number s n L) (number s n R) <-> odd_pattern L R).
    { unfold odd_pattern. rewrite !number_dots, NK. assert (ell_name <> s) by auto. tauto. }
    split.
    { destruct (Nat.eq_dec e 0) as [E0|E0]; [left; auto|].
      destruct (Bool.bool_dec (has_dots L && negb (has_dots R) && str_mem ell_name (keys R)) true) as [E|E].
      - right. apply andb_true_iff in E as [E E3]. apply andb_true_iff in E as [E1 E2]. apply negb_true_iff in E2. apply str_mem_In in E3.
        assert (odd_pattern L R) by (split; auto). tauto.
      - left. assert (Hno : ~ odd_pattern L R).
        { intros [E1 [E2 E3]]. apply E. rewrite E1, E2. apply str_mem_In in E3. rewrite E3. reflexivity. }
        tauto. }
    split; [exact GL|]. split; [exact GR|]. split.
    { intros a b Ha Hb E. destruct a as [t|i|j m], b as [u|i'|j' m']; cbn [rho_num] in E;
        repeat match type of E with context [str_eqb ?a ?b] => let H := fresh in destruct (str_eqb a b) eqn:H; [apply str_eqb_eq in H; subst|] end;
        try discriminate; try congruence.
      - exfalso. inversion E as [[E1 E2]]. clear -E1. destruct (j' <? K) eqn:X; [apply Nat.ltb_lt in X|apply Nat.ltb_ge in X]; lia.
      - exfalso. inversion E as [[E1 E2]]. clear -E1. destruct (j <? K) eqn:X; [apply Nat.ltb_lt in X|apply Nat.ltb_ge in X]; lia.
      - inversion E as [[E1 E2]]. f_equal. clear -E1.
        destruct (j <? K) eqn:X; [apply Nat.ltb_lt in X|apply Nat.ltb_ge in X]; (destruct (j' <? K) eqn:Y; [apply Nat.ltb_lt in Y|apply Nat.ltb_ge in Y]); lia. }
    intros Hgood a Ha. destruct a as [t|i|j m]; cbn [rho_num unknown axis_of map fst]; auto.
    - destruct (str_eqb t s) eqn:E.
      + apply str_eqb_eq in E. subst t. cbn [unknown axis_of env0]. cbn. rewrite str_eqb_refl. auto.
      + cbn. rewrite E. auto.
    - split; auto. unfold ell_axis. cbn [env0 dict_get].
      destruct (str_eqb (ellipsis_str ++ str_of_nat i) s) eqn:E; auto. exfalso. apply str_eqb_eq in E.
      assert (Hp : plain_name U s).
      { destruct Hcase as [[H1 _]|[H1 _]]; [exact (key_plain_L U p L R Hr s H1)|exact (key_plain_R U p L R Hr s H1)]. }
      apply (name_not_ell_axis U s i HU Hp). unfold ell_axis. rewrite E. reflexivity.
  Qed.
End NumberCall.
