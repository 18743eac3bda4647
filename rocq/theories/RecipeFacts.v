(** * The recipe, freed from positions and set orders *)
From Verif Require Import Py ListFacts Parsing Recipe ParseFacts.

(** ** dicts keyed by axes *)
Definition dict_of {V} (f : axis -> V) (l : list axis) : list (axis * V) := map (fun a => (a, f a)) l.

Lemma dict_get_of {V} (f : axis -> V) l a :
  dict_get axis_eqb a (dict_of f l) = if axis_mem a l then Some (f a) else None.
Proof.
  induction l as [|b l IH]; simpl; [reflexivity|]. rewrite IH.
  destruct (axis_eqb a b) eqn:E; simpl; auto. apply axis_eqb_eq in E; subst; auto.
Qed.

Lemma dict_has_of {V} (f : axis -> V) l a : dict_has axis_eqb a (dict_of f l) = axis_mem a l.
Proof. unfold dict_has. rewrite dict_get_of. destruct (axis_mem a l); reflexivity. Qed.

Lemma dict_set_new {V} (f : axis -> V) l a :
  ~ In a l -> dict_set axis_eqb a (f a) (dict_of f l) = dict_of f (l ++ [a]).
Proof.
  induction l as [|b l IH]; intros H; simpl; [reflexivity|].
  destruct (axis_eqb a b) eqn:E.
  - apply axis_eqb_eq in E; subst. exfalso; apply H; left; auto.
  - f_equal. apply IH. intros Hin; apply H; right; auto.
Qed.

Lemma dict_set_old {V} (f : axis -> V) l a v :
  In a l -> NoDup l ->
  dict_set axis_eqb a v (dict_of f l) = dict_of (fun b => if axis_eqb a b then v else f b) l.
Proof.
  induction l as [|b l IH]; intros H Hnd; simpl; [destruct H|].
  inversion Hnd as [|? ? Hb Hnd']; subst.
  destruct (axis_eqb a b) eqn:E.
  - apply axis_eqb_eq in E; subst. f_equal. unfold dict_of. apply map_ext_in. intros c Hc.
    destruct (axis_eqb b c) eqn:E2; auto. apply axis_eqb_eq in E2; subst; contradiction.
  - f_equal. apply IH; auto. destruct H as [->|H]; auto. rewrite axis_eqb_refl in E; discriminate.
Qed.

Lemma dict_of_ext {V} (f g : axis -> V) l : (forall a, In a l -> f a = g a) -> dict_of f l = dict_of g l.
Proof. intros H. unfold dict_of. apply map_ext_in. intros a Ha. rewrite H; auto. Qed.

(** ** the dictionary of axes *)
Definition new_axes (rids : list axis) (left_ : list axis) : list axis :=
  filter (fun a => negb (axis_mem a left_)) rids.
Definition all_axes (o : orders) (lcomp : list (list axis)) (rids : list axis) : list axis :=
  concat lcomp ++ new_axes (o 0 rids) (concat lcomp).

Lemma known_lengths_left_of lcomp :
  NoDup (concat lcomp) -> known_lengths_left lcomp = dict_of own_length (concat lcomp).
Proof.
  unfold known_lengths_left. generalize (concat lcomp) as l.
  assert (G : forall l done, NoDup (done ++ l) ->
     fold_left (fun d a => dict_set axis_eqb a (own_length a) d) l (dict_of own_length done)
     = dict_of own_length (done ++ l)).
  { induction l as [|a l IH]; intros done H; simpl; [rewrite app_nil_r; auto|].
    rewrite dict_set_new.
    - rewrite IH; rewrite <- app_assoc; auto.
    - apply NoDup_remove_2 in H. intros Hin; apply H. apply in_or_app; auto. }
  intros l H. apply (G l []); auto.
Qed.

Lemma known_lengths_add_of rids l :
  NoDup rids ->
  known_lengths_add rids (dict_of own_length l) = dict_of own_length (l ++ new_axes rids l).
Proof.
  intros Hnd. unfold known_lengths_add.
  assert (G : forall rids done, NoDup rids -> (forall a, In a rids -> In a done -> In a l) -> incl l done ->
     fold_left (fun d a => if dict_has axis_eqb a d then d else dict_set axis_eqb a (own_length a) d) rids
       (dict_of own_length done) = dict_of own_length (done ++ new_axes rids l)).
  { clear Hnd rids. induction rids as [|a rids IH]; intros done Hnd Hd Hi; simpl; [rewrite app_nil_r; auto|].
    inversion Hnd as [|? ? Ha Hnd']; subst. rewrite dict_has_of.
    destruct (axis_mem a done) eqn:E.
    - apply axis_mem_In in E. assert (Hal : In a l) by (apply Hd; [left|]; auto).
      rewrite IH; auto; [|intros b Hb; apply Hd; right; auto].
      apply axis_mem_In in Hal. rewrite Hal. reflexivity.
    - apply axis_mem_false in E. rewrite dict_set_new by auto.
      rewrite IH; auto.
      + assert (Hal : axis_mem a l = false) by (apply axis_mem_false; intros H; apply E, Hi; auto).
        rewrite Hal. simpl. rewrite <- app_assoc. reflexivity.
      + intros b Hb Hin. apply in_app_or in Hin as [Hin|[->|[]]]; [apply Hd; [right|]; auto|contradiction].
      + intros b Hb. apply in_or_app; auto. }
  apply G; auto. apply incl_refl.
Qed.

Lemma all_axes_NoDup o lcomp rids :
  orders_ok o -> NoDup (concat lcomp) -> NoDup rids -> NoDup (all_axes o lcomp rids).
Proof.
  intros Ho H1 H2. unfold all_axes. apply NoDup_app_iff. split; [auto|split].
  - unfold new_axes. apply NoDup_filter. eapply Permutation_NoDup; [apply Permutation_sym, Ho|auto].
  - intros a Ha Hin. unfold new_axes in Hin. apply filter_In in Hin as [_ Hin].
    apply negb_true_iff, axis_mem_false in Hin. auto.
Qed.

Lemma all_axes_In o lcomp rids a :
  orders_ok o -> (In a (all_axes o lcomp rids) <-> In a (concat lcomp) \/ In a rids).
Proof.
  intros Ho. unfold all_axes, new_axes. rewrite in_app_iff, filter_In, negb_true_iff, axis_mem_false.
  split.
  - intros [H|[H _]]; auto. right. eapply Permutation_in; [apply Ho|exact H].
  - intros [H|H]; auto. destruct (axis_mem a (concat lcomp)) eqn:E.
    + apply axis_mem_In in E; auto.
    + apply axis_mem_false in E. right; split; auto. eapply Permutation_in; [apply Permutation_sym, Ho|auto].
Qed.

Lemma name2position_get {V} (f : axis -> V) l a :
  dict_get axis_eqb a (name2position (dict_of f l)) = index_of axis_eqb a l.
Proof.
  unfold name2position, enumerate.
  assert (G : forall k, dict_get axis_eqb a (map (fun '(i, (a0, _)) => (a0, i)) (enumerate_from k (dict_of f l)))
                        = option_map (fun i => k + i) (index_of axis_eqb a l)).
  { induction l as [|b l IH]; intros k; simpl; [reflexivity|].
    destruct (axis_eqb a b); simpl; [f_equal; lia|]. rewrite IH.
    destruct (index_of axis_eqb a l); simpl; [f_equal; lia|reflexivity]. }
  rewrite G. simpl. destruct (index_of axis_eqb a l); reflexivity.
Qed.

(** ** lengths announced by the caller *)
Definition announced (names : list pystr) (a : axis) : bool :=
  match a with AxName s => str_mem s names | AxAnon _ _ => false end.
Definition mval (names : list pystr) (a : axis) : Z :=
  if announced names a then expected_axis_length else own_length a.

Lemma mark_expected_of U names l :
  NoDup l ->
  mark_expected U names (dict_of own_length l) =
  if forallb (fun s => check_axis_name U false s && axis_mem (AxName s) l) names
  then Ok (dict_of (mval names) l) else Err EinopsError.
Proof.
  intros Hnd. unfold mark_expected.
  assert (G : forall names done,
    foldM (fun d name =>
           let* _ := raise_if (negb (check_axis_name U false name)) EinopsError in
           let* _ := raise_if (negb (dict_has axis_eqb (AxName name) d)) EinopsError in
           Ok (dict_set axis_eqb (AxName name) expected_axis_length d)) names (dict_of (mval done) l)
    = if forallb (fun s => check_axis_name U false s && axis_mem (AxName s) l) names
      then Ok (dict_of (mval (done ++ names)) l) else Err EinopsError).
  { clear names. induction names as [|s names IH]; intros done; simpl; [rewrite app_nil_r; auto|].
    destruct (check_axis_name U false s); simpl; [|reflexivity].
    rewrite dict_has_of. destruct (axis_mem (AxName s) l) eqn:E; simpl; [|reflexivity].
    apply axis_mem_In in E. rewrite dict_set_old by auto.
    replace (dict_of (fun b => if axis_eqb (AxName s) b then expected_axis_length else mval done b) l)
      with (dict_of (mval (done ++ [s])) l).
    - rewrite IH, <- app_assoc. reflexivity.
    - apply dict_of_ext. intros a _. unfold mval, announced. destruct (axis_eqb (AxName s) a) eqn:Ea.
      + apply axis_eqb_eq in Ea; subst. unfold str_mem. rewrite existsb_app. simpl. rewrite str_eqb_refl, orb_true_r. reflexivity.
      + destruct a as [s'|]; auto. unfold str_mem. rewrite existsb_app. simpl. rewrite orb_false_r.
        replace (str_eqb s' s) with false; [rewrite orb_false_r; reflexivity|].
        symmetry. destruct (str_eqb s' s) eqn:E'; auto. apply str_eqb_eq in E'; subst.
        rewrite axis_eqb_refl in Ea; discriminate. }
  rewrite <- (dict_of_ext (mval []) own_length l) by (intros [|]; reflexivity). apply (G names []).
Qed.

(** ** known and unknown axes of a group *)
Definition is_known (names : list pystr) (a : axis) : bool :=
  match a with AxName s => str_mem s names | AxAnon _ _ => true end.
Definition anon_ok (a : axis) : Prop := match a with AxAnon _ v => (2 <= v)%Z | AxName _ => True end.

Lemma mval_known names a : anon_ok a -> negb (mval names a =? unknown_axis_length)%Z = is_known names a.
Proof.
  unfold mval, announced, is_known. destruct a as [s|i v]; simpl.
  - destruct (str_mem s names); reflexivity.
  - intros H. apply negb_true_iff. apply Z.eqb_neq. unfold unknown_axis_length. lia.
Qed.

Lemma set_of_NoDup l : NoDup l -> set_of l = l.
Proof.
  unfold set_of.
  assert (G : forall l done, NoDup (done ++ l) -> fold_left (fun acc x => set_add x acc) l done = done ++ l).
  { induction l0 as [|a l0 IH]; intros done H; simpl; [rewrite app_nil_r; auto|].
    unfold set_add at 2. replace (axis_mem a done) with false.
    - rewrite IH; rewrite <- app_assoc; auto.
    - symmetry; apply axis_mem_false. apply NoDup_remove_2 in H. intros Hin; apply H. apply in_or_app; auto. }
  intros H. apply (G l []); auto.
Qed.

Lemma set_of_is_NoDup l : NoDup (set_of l).
Proof.
  unfold set_of.
  assert (G : forall l done, NoDup done -> NoDup (fold_left (fun acc x => set_add x acc) l done)).
  { induction l0 as [|a l0 IH]; intros done H; simpl; auto. apply IH. unfold set_add.
    destruct (axis_mem a done) eqn:E; auto. apply axis_mem_false in E.
    apply NoDup_app_iff. split; [auto|split]; [constructor; [tauto|constructor]|].
    intros x Hx [<-|[]]; contradiction. }
  apply G. constructor.
Qed.

Lemma set_of_In l a : In a (set_of l) <-> In a l.
Proof. unfold set_of. rewrite fold_set_add_In. simpl. tauto. Qed.

Lemma filter_combine {V} (f : axis -> V) (p : V -> bool) g :
  map fst (filter (fun '(_, v) => p v) (combine g (map f g))) = filter (fun a => p (f a)) g.
Proof.
  induction g as [|a g IH]; simpl; [reflexivity|]. destruct (p (f a)); simpl; rewrite IH; reflexivity.
Qed.

Definition positions (l : list axis) (g : list axis) : result (list nat) :=
  mapM (fun a => of_option KeyError (index_of axis_eqb a l)) g.

Lemma filter_length_split {B} (p : B -> bool) l :
  length (filter (fun a => negb (p a)) l) + length (filter p l) = length l.
Proof. induction l as [|a l IH]; simpl; auto. destruct (p a); simpl; lia. Qed.

Lemma known_unknown_of o names l g :
  incl g l -> NoDup g -> (forall a, In a g -> anon_ok a) ->
  known_unknown o (dict_of (mval names) l) (name2position (dict_of own_length l)) g =
  let known := filter (is_known names) g in
  let unknown := filter (fun a => negb (is_known names a)) g in
  if 1 <? length unknown then Err EinopsError
  else let* k := positions l (o 1 known) in
       let* u := positions l (o 2 unknown) in Ok (k, u).
Proof.
  intros Hincl Hnd Han. unfold known_unknown.
  assert (E : mapM (fun a => dict_getr a (dict_of (mval names) l)) g = Ok (map (mval names) g)).
  { apply mapM_total. intros a Ha. unfold dict_getr. rewrite dict_get_of.
    assert (Hm : axis_mem a l = true) by (apply axis_mem_In; auto). rewrite Hm. reflexivity. }
  rewrite E. cbn [bind].
  rewrite (filter_combine (mval names) (fun v => negb (v =? unknown_axis_length)%Z)).
  rewrite (filter_combine (mval names) (fun v => (v =? unknown_axis_length)%Z)).
  assert (F1 : filter (fun a => negb (mval names a =? unknown_axis_length)%Z) g = filter (is_known names) g).
  { apply filter_ext_in. intros a Ha. apply mval_known; auto. }
  assert (F2 : filter (fun a => (mval names a =? unknown_axis_length)%Z) g = filter (fun a => negb (is_known names a)) g).
  { apply filter_ext_in. intros a Ha. rewrite <- mval_known by auto. rewrite negb_involutive. reflexivity. }
  rewrite F1, F2. rewrite !set_of_NoDup by (apply NoDup_filter; auto). cbv zeta.
  destruct (1 <? length (filter (fun a => negb (is_known names a)) g)); simpl; [reflexivity|].
  rewrite filter_length_split, Nat.eqb_refl. simpl.
  unfold positions. rewrite (mapM_ext_in (fun a => dict_getr a (name2position (dict_of own_length l)))
    (fun a => of_option KeyError (index_of axis_eqb a l)) (o 1 _)).
  - apply bind_ext. intros k _. rewrite (mapM_ext_in (fun a => dict_getr a (name2position (dict_of own_length l)))
      (fun a => of_option KeyError (index_of axis_eqb a l)) (o 2 _)); auto.
    intros a _. unfold dict_getr. rewrite name2position_get. reflexivity.
  - intros a _. unfold dict_getr. rewrite name2position_get. reflexivity.
Qed.

(** ** splitting [_prepare_transformation_recipe] in two halves *)
Definition frontend (U : unicode) (pattern : pystr) (op : operation) (names : list pystr) (ndim : nat)
    : result (list (list axis) * list (list axis) * list axis * list axis) :=
  match str_split s_arrow pattern with
  | [left_str; rght_str] =>
    let* (lft, next) := parse_expression U false false 0 left_str in
    let* (rght, _) := parse_expression U false false next rght_str in
    let* _ := raise_if (negb (p_has_ellipsis lft) && p_has_ellipsis rght) EinopsError in
    let* _ := raise_if (p_has_ellipsis lft
                        && match p_ell_par lft with Some b => b | None => false end) EinopsError in
    let* _ := check_identifiers op lft rght names in
    resolve_ellipsis lft rght ndim
  | _ => Err ValueError
  end.

Definition backend_half (U : unicode) (o : orders) (names : list pystr)
    (x : list (list axis) * list (list axis) * list axis * list axis) : result recipe :=
  let '(lcomp, rcomp, lids, rids) := x in
  let d1 := known_lengths_left lcomp in
  let d2 := known_lengths_add (o 0 rids) d1 in
  let pos := name2position d2 in
  let* d3 := mark_expected U names d2 in
  let* input := mapM (known_unknown o d3 pos) lcomp in
  let* output := mapM (mapM (fun a => dict_getr a pos)) rcomp in
  let ordered_left := concat lcomp in
  let ordered_rght := concat rcomp in
  let reduced := filter (fun a => negb (axis_mem a rids)) ordered_left in
  let order_after := filter (fun a => axis_mem a lids) ordered_rght ++ reduced in
  let* perm := mapM (fun a => axis_index a ordered_left) order_after in
  let* added := mapM (fun '(i, a) => let* p := dict_getr a pos in Ok (i, p))
                  (filter (fun '(_, a) => negb (axis_mem a lids)) (enumerate ordered_rght)) in
  let* n2e := mapM (fun s => let* p := dict_getr (AxName s) pos in Ok (s, p)) names in
  Ok {| r_elementary := map snd d3;
        r_name2elem := n2e;
        r_input := input;
        r_perm := perm;
        r_first_reduced := length order_after - length reduced;
        r_added := added;
        r_output := output |}.

Lemma prepare_split U o pattern op names ndim :
  prepare_recipe U o pattern op names ndim =
  let* x := frontend U pattern op names ndim in backend_half U o names x.
Proof.
  unfold prepare_recipe, frontend. destruct (str_split s_arrow pattern) as [|l [|r [|? ?]]]; try reflexivity.
  rewrite bind_assoc. apply bind_ext. intros [lft k] _.
  rewrite bind_assoc. apply bind_ext. intros [rght k'] _.
  rewrite bind_assoc. apply bind_ext. intros ? _.
  rewrite bind_assoc. apply bind_ext. intros ? _.
  rewrite bind_assoc. apply bind_ext. intros ? _.
  apply bind_ext. intros [[[lcomp rcomp] lids] rids] _. reflexivity.
Qed.

(** ** the recipe in closed form *)
Definition pos_in (l : list axis) (a : axis) : nat :=
  match index_of axis_eqb a l with Some i => i | None => 0 end.

Lemma pos_in_Ok l a e : In a l -> of_option e (index_of axis_eqb a l) = Ok (pos_in l a).
Proof.
  intros H. unfold pos_in. destruct (index_of_In axis_eqb axis_eqb_eq a l H) as [i ->]. reflexivity.
Qed.

Lemma pos_in_nth l a : In a l -> nth_error l (pos_in l a) = Some a.
Proof.
  intros H. unfold pos_in. destruct (index_of_In axis_eqb axis_eqb_eq a l H) as [i E]. rewrite E.
  apply (index_of_Some axis_eqb axis_eqb_eq); auto.
Qed.

Lemma pos_in_app l1 l2 a : In a l1 -> pos_in (l1 ++ l2) a = pos_in l1 a.
Proof.
  intros H. unfold pos_in. destruct (index_of_In axis_eqb axis_eqb_eq a l1 H) as [i E]. rewrite E.
  rewrite (index_of_app_l axis_eqb _ _ _ _ E). reflexivity.
Qed.

(** what the first half guarantees; [weak] covers even the odd patterns that
    contain the internal marker of the ellipsis *)
Record weakly_resolved (lcomp rcomp : list (list axis)) (lids rids : list axis) : Prop := {
  wr_ndl : NoDup (concat lcomp);
  wr_ndr : NoDup (concat rcomp);
  wr_ndi : NoDup rids;
  wr_lids : forall a, In a lids <-> In a (concat lcomp);
  wr_rids : forall a, In a (concat rcomp) -> In a (concat lcomp) \/ In a rids;
  wr_anon : forall a, In a (concat lcomp) \/ In a rids -> anon_ok a
}.

Definition reduced_axes_of (lcomp : list (list axis)) (rids : list axis) : list axis :=
  filter (fun a => negb (axis_mem a rids)) (concat lcomp).
Definition kept_axes_of (lcomp rcomp : list (list axis)) : list axis :=
  filter (fun a => axis_mem a (concat lcomp)) (concat rcomp).
Definition order_after_of lcomp rcomp rids : list axis :=
  kept_axes_of lcomp rcomp ++ reduced_axes_of lcomp rids.
Definition added_of (lcomp rcomp : list (list axis)) : list (nat * axis) :=
  filter (fun '(_, a) => negb (axis_mem a (concat lcomp))) (enumerate (concat rcomp)).

Definition names_ok (U : unicode) (lcomp : list (list axis)) (rids : list axis) (names : list pystr) : bool :=
  forallb (fun s => check_axis_name U false s && axis_mem (AxName s) (concat lcomp ++ rids)) names.
Definition groups_ok (names : list pystr) (lcomp : list (list axis)) : bool :=
  forallb (fun g => length (filter (fun a => negb (is_known names a)) g) <=? 1) lcomp.

Definition closed_recipe (o : orders) (names : list pystr) (lcomp rcomp : list (list axis)) (rids : list axis) : recipe :=
  let l := all_axes o lcomp rids in
  {| r_elementary := map (mval names) l;
     r_name2elem := map (fun s => (s, pos_in l (AxName s))) names;
     r_input := map (fun g => (map (pos_in l) (o 1 (filter (is_known names) g)),
                               map (pos_in l) (filter (fun a => negb (is_known names a)) g))) lcomp;
     r_perm := map (pos_in (concat lcomp)) (order_after_of lcomp rcomp rids);
     r_first_reduced := length (kept_axes_of lcomp rcomp);
     r_added := map (fun '(i, a) => (i, pos_in l a)) (added_of lcomp rcomp);
     r_output := map (map (pos_in l)) rcomp |}.

Lemma axis_mem_iff a l m : (In a l <-> In a m) -> axis_mem a l = axis_mem a m.
Proof.
  intros H. destruct (axis_mem a m) eqn:E.
  - apply axis_mem_In in E. apply axis_mem_In; tauto.
  - apply axis_mem_false in E. apply axis_mem_false; tauto.
Qed.

Lemma Permutation_short {B} (l m : list B) : Permutation l m -> length m <= 1 -> l = m.
Proof.
  intros H Hl. destruct m as [|x [|y m]]; simpl in Hl; try lia.
  - apply Permutation_sym, Permutation_nil in H; auto.
  - apply Permutation_sym, Permutation_length_1_inv in H; auto.
Qed.

Lemma forallb_ext_in {B} (f g : B -> bool) l : (forall x, In x l -> f x = g x) -> forallb f l = forallb g l.
Proof.
  induction l as [|x l IH]; intros H; simpl; auto. rewrite H by (left; auto). rewrite IH; auto.
  intros y Hy; apply H; right; auto.
Qed.

Lemma mapM_checked {B C} (f : B -> result C) (p : B -> bool) (h : B -> C) e l :
  (forall x, In x l -> f x = if p x then Ok (h x) else Err e) ->
  mapM f l = if forallb p l then Ok (map h l) else Err e.
Proof.
  induction l as [|x l IH]; intros H; simpl; [reflexivity|].
  rewrite H by (left; auto). destruct (p x); simpl; [|reflexivity].
  rewrite IH by (intros y Hy; apply H; right; auto). destruct (forallb p l); reflexivity.
Qed.

Lemma NoDup_concat_in {B} (gs : list (list B)) g : NoDup (concat gs) -> In g gs -> NoDup g.
Proof.
  induction gs as [|h r IH]; intros Hnd Hg; [destruct Hg|]. simpl in Hnd.
  apply NoDup_app_iff in Hnd as [H1 [H2 _]]. destruct Hg as [->|Hg]; auto.
Qed.

Lemma positions_Ok l g : incl g l -> positions l g = Ok (map (pos_in l) g).
Proof. intros H. apply mapM_total. intros a Ha. apply pos_in_Ok. auto. Qed.

Lemma filter_ext_In (p q : axis -> bool) l : (forall a, p a = q a) -> filter p l = filter q l.
Proof. intros H. apply filter_ext. auto. Qed.

Lemma backend_closed U o names lcomp rcomp lids rids :
  orders_ok o -> weakly_resolved lcomp rcomp lids rids ->
  backend_half U o names (lcomp, rcomp, lids, rids) =
  if names_ok U lcomp rids names
  then if groups_ok names lcomp then Ok (closed_recipe o names lcomp rcomp rids) else Err EinopsError
  else Err EinopsError.
Proof.
  intros Ho [Hndl Hndr Hndi Hlids Hrids Han]. unfold backend_half.
  assert (Hndi' : NoDup (o 0 rids)) by (eapply Permutation_NoDup; [apply Permutation_sym, Ho|auto]).
  rewrite known_lengths_left_of by auto. rewrite known_lengths_add_of by auto.
  change (concat lcomp ++ new_axes (o 0 rids) (concat lcomp)) with (all_axes o lcomp rids).
  pose proof (all_axes_NoDup o lcomp rids Ho Hndl Hndi) as HndA.
  pose proof (fun a => all_axes_In o lcomp rids a Ho) as HinA.
  set (l := all_axes o lcomp rids) in *. cbv zeta.
  rewrite mark_expected_of by auto.
  replace (forallb (fun s => check_axis_name U false s && axis_mem (AxName s) l) names) with (names_ok U lcomp rids names).
  2: { unfold names_ok. apply forallb_ext_in. intros s _. f_equal. apply axis_mem_iff. rewrite HinA, in_app_iff. tauto. }
  destruct (names_ok U lcomp rids names) eqn:En; [|reflexivity]. cbn [bind].
  rewrite (mapM_checked _ (fun g => length (filter (fun a => negb (is_known names a)) g) <=? 1)
     (fun g => (map (pos_in l) (o 1 (filter (is_known names) g)),
                map (pos_in l) (filter (fun a => negb (is_known names a)) g))) EinopsError lcomp).
  2: { intros g Hg. assert (Hc : incl g (concat lcomp)) by (intros a Ha; apply in_concat; eauto).
       assert (Hl : incl g l) by (intros a Ha; apply HinA; left; auto).
       rewrite known_unknown_of; auto.
       - cbv zeta. set (us := filter (fun a => negb (is_known names a)) g).
         destruct (length us <=? 1) eqn:E.
         + apply Nat.leb_le in E. rewrite (proj2 (Nat.ltb_ge _ _)) by auto.
           rewrite (Permutation_short (o 2 us) us) by (auto; apply Ho).
           rewrite !positions_Ok; [reflexivity| |].
           * intros a Ha. apply filter_In in Ha as [Ha _]; auto.
           * intros a Ha. eapply Permutation_in in Ha; [|apply Ho]. apply filter_In in Ha as [Ha _]; auto.
         + apply Nat.leb_gt in E. rewrite (proj2 (Nat.ltb_lt _ _)) by auto. reflexivity.
       - apply (NoDup_concat_in lcomp); auto.
       }
  change (forallb _ lcomp) with (groups_ok names lcomp).
  destruct (groups_ok names lcomp) eqn:Eg; [|reflexivity]. cbn [bind].
  assert (Hget : forall a, In a l -> dict_getr a (name2position (dict_of own_length l)) = Ok (pos_in l a)).
  { intros a Ha. unfold dict_getr. rewrite name2position_get. apply pos_in_Ok; auto. }
  rewrite (mapM_total _ (map (pos_in l)) rcomp).
  2: { intros g Hg. apply mapM_total. intros a Ha. apply Hget. apply HinA.
       apply Hrids. apply in_concat; eauto. }
  cbn [bind].
  rewrite (filter_ext_In (fun a => axis_mem a lids) (fun a => axis_mem a (concat lcomp)))
    by (intros a; apply axis_mem_iff; auto).
  fold (kept_axes_of lcomp rcomp) (reduced_axes_of lcomp rids). fold (order_after_of lcomp rcomp rids).
  rewrite (mapM_total _ (pos_in (concat lcomp)) (order_after_of lcomp rcomp rids)).
  2: { intros a Ha. apply pos_in_Ok. unfold order_after_of in Ha. apply in_app_or in Ha as [Ha|Ha].
       - apply filter_In in Ha as [_ Ha]. apply axis_mem_In; auto.
       - apply filter_In in Ha as [Ha _]; auto. }
  cbn [bind].
  replace (filter (fun '(_, a) => negb (axis_mem a lids)) (enumerate (concat rcomp))) with (added_of lcomp rcomp).
  2: { unfold added_of. apply filter_ext. intros [i a]. f_equal. apply axis_mem_iff. symmetry; auto. }
  rewrite (mapM_total _ (fun '(i, a) => (i, pos_in l a)) (added_of lcomp rcomp)).
  2: { intros [i a] Hia. unfold added_of in Hia. apply filter_In in Hia as [Hia _].
       apply (in_map snd) in Hia. unfold enumerate in Hia. rewrite enumerate_from_snd in Hia. simpl in Hia.
       rewrite Hget; [reflexivity|]. apply HinA. apply Hrids; auto. }
  cbn [bind].
  rewrite (mapM_total _ (fun s => (s, pos_in l (AxName s))) names).
  2: { intros s Hs. unfold names_ok in En. rewrite forallb_forall in En. apply En in Hs.
       apply andb_true_iff in Hs as [_ Hs]. apply axis_mem_In in Hs. rewrite Hget; [reflexivity|].
       apply HinA. apply in_app_or in Hs; tauto. }
  cbn [bind]. unfold closed_recipe. f_equal. f_equal.
  - fold l. unfold dict_of. rewrite map_map. reflexivity.
  - unfold order_after_of. rewrite app_length. lia.
Qed.

(** ** reconstruction, freed from positions *)
Definition prodZ (l : list Z) : Z := fold_right Z.mul 1%Z l.
Definition upd (env : axis -> Z) (a : axis) (z : Z) : axis -> Z :=
  fun b => if axis_eqb a b then z else env b.

(** lengths before looking at the shape *)
Definition env0 (sizes : list (pystr * Z)) (a : axis) : Z :=
  match a with
  | AxAnon _ v => v
  | AxName s => match dict_get str_eqb s sizes with Some z => z | None => unknown_axis_length end
  end.

Definition ref_step (names : list pystr) (st : (axis -> Z) * bool) (x : Z * list axis)
    : result ((axis -> Z) * bool) :=
  let '(env, need) := st in
  let '(len, g) := x in
  let ks := filter (is_known names) g in
  let us := filter (fun a => negb (is_known names a)) g in
  match ks, us with
  | [], [u] => Ok (upd env u len, need)
  | _, _ =>
      let kp := prodZ (map env ks) in
      let* env' := match us with
                   | [] => if (len =? kp)%Z then Ok env else Err EinopsError
                   | u :: _ => if (kp =? 0)%Z then Err ZeroDivisionError
                               else if (len mod kp =? 0)%Z then Ok (upd env u (len / kp)%Z) else Err EinopsError
                   end in
      Ok (env', if length g =? 1 then need else true)
  end.
Definition ref_infer names shape lcomp st := foldM (ref_step names) (combine shape lcomp) st.

Lemma fold_left_mul l z : fold_left Z.mul l z = (z * prodZ l)%Z.
Proof.
  revert z; induction l as [|x l IH]; intros z; simpl; [ring|]. rewrite IH. ring.
Qed.
Lemma prodZ_perm l m : Permutation l m -> prodZ l = prodZ m.
Proof. induction 1; simpl; try congruence. ring. Qed.
Lemma prodZ_app l m : prodZ (l ++ m) = (prodZ l * prodZ m)%Z.
Proof. induction l as [|x l IH]; simpl; [destruct (prodZ m); reflexivity|]. rewrite IH. ring. Qed.
Lemma product_prodZ l : product int_ops l = prodZ l.
Proof. unfold product. simpl. rewrite fold_left_mul. apply Z.mul_1_l. Qed.

Lemma list_get_map l (env : axis -> Z) a : In a l -> list_get (map env l) (pos_in l a) = Ok (env a).
Proof. intros H. apply list_get_Ok. apply map_nth_error. apply pos_in_nth; auto. Qed.

Lemma pos_in_inj l a b : In a l -> In b l -> pos_in l a = pos_in l b -> a = b.
Proof.
  intros Ha Hb E. apply pos_in_nth in Ha. apply pos_in_nth in Hb. congruence.
Qed.

Lemma list_upd_map l (env : axis -> Z) a z :
  NoDup l -> In a l -> list_upd (map env l) (pos_in l a) z = Ok (map (upd env a z) l).
Proof.
  intros Hnd Ha. pose proof (pos_in_nth _ _ Ha) as Hn.
  destruct (list_upd_exists (map env l) (pos_in l a) z) as [l' E].
  { rewrite map_length. apply nth_error_Some. congruence. }
  rewrite E. f_equal. apply list_ext. intros j. rewrite (list_upd_nth _ _ _ _ j E).
  destruct (j =? pos_in l a) eqn:Ej.
  - apply Nat.eqb_eq in Ej; subst. erewrite map_nth_error by eauto. unfold upd. rewrite axis_eqb_refl. reflexivity.
  - apply Nat.eqb_neq in Ej. destruct (nth_error l j) as [b|] eqn:Eb.
    + erewrite !map_nth_error by eauto. unfold upd. destruct (axis_eqb a b) eqn:Eab; auto.
      apply axis_eqb_eq in Eab; subst. exfalso; apply Ej.
      eapply NoDup_nth_error; eauto; [apply nth_error_Some; congruence|congruence].
    + transitivity (@None Z); [|symmetry]; apply nth_error_None; rewrite map_length; apply nth_error_None; auto.
Qed.

Lemma sizes_loop l sizes :
  NoDup l -> NoDup (map fst sizes) -> (forall s, In s (map fst sizes) -> In (AxName s) l) ->
  foldM (fun al '(name, dim) =>
           let* p := of_option KeyError (dict_get str_eqb name
                        (map (fun s => (s, pos_in l (AxName s))) (map fst sizes))) in
           list_upd al p dim) sizes (map (mval (map fst sizes)) l)
  = Ok (map (env0 sizes) l).
Proof.
  intros Hl Hnd Hin.
  assert (Hget : forall s, In s (map fst sizes) ->
    dict_get str_eqb s (map (fun s => (s, pos_in l (AxName s))) (map fst sizes)) = Some (pos_in l (AxName s))).
  { intros s. generalize (map fst sizes) as ns. induction ns as [|x ns IH]; simpl; [tauto|].
    intros H. destruct (str_eqb s x) eqn:E; [apply str_eqb_eq in E; subst; auto|].
    destruct H as [->|H]; [rewrite str_eqb_refl in E; discriminate|auto]. }
  set (tbl := map (fun s => (s, pos_in l (AxName s))) (map fst sizes)) in *. clearbody tbl.
  set (mixed := fun done a => match a with
      | AxAnon _ v => v
      | AxName s => match dict_get str_eqb s done with Some z => z
                    | None => if str_mem s (map fst sizes) then expected_axis_length else unknown_axis_length end end).
  assert (G : forall todo done, sizes = done ++ todo ->
    foldM (fun al '(name, dim) => let* p := of_option KeyError (dict_get str_eqb name tbl) in list_upd al p dim)
      todo (map (mixed done) l) = Ok (map (mixed sizes) l)).
  { induction todo as [|[s z] todo IH]; intros done E; cbn [foldM].
    - rewrite app_nil_r in E; subst; reflexivity.
    - assert (Hs : In s (map fst sizes)) by (rewrite E, map_app; apply in_or_app; right; left; auto).
      rewrite Hget by auto. cbn [of_option bind]. rewrite list_upd_map by auto. cbn [bind].
      rewrite <- (IH (done ++ [(s, z)])) by (rewrite <- app_assoc; auto). f_equal.
      apply map_ext. intros a. unfold upd, mixed. destruct a as [s'|i v]; [|reflexivity].
      assert (Hd : dict_get str_eqb s' (done ++ [(s, z)])
        = match dict_get str_eqb s' done with Some y => Some y | None => if str_eqb s' s then Some z else None end).
      { clear. induction done as [|[k v] d IH]; simpl; [reflexivity|]. destruct (str_eqb s' k); auto. }
      rewrite Hd. destruct (axis_eqb (AxName s) (AxName s')) eqn:Ea.
      + apply axis_eqb_eq in Ea; inversion Ea; subst s'. rewrite str_eqb_refl.
        replace (dict_get str_eqb s done) with (@None Z); [reflexivity|]. symmetry.
        rewrite E, map_app in Hnd. apply NoDup_remove_2 in Hnd.
        destruct (dict_get str_eqb s done) eqn:Eg; auto. exfalso; apply Hnd. apply in_or_app; left.
        clear -Eg. induction done as [|[k v] d IH]; simpl in *; [discriminate|].
        destruct (str_eqb s k) eqn:E; [apply str_eqb_eq in E; auto|right; auto].
      + assert (Hne : str_eqb s' s = false).
        { destruct (str_eqb s' s) eqn:E'; auto. apply str_eqb_eq in E'; subst. rewrite axis_eqb_refl in Ea; discriminate. }
        rewrite Hne. destruct (dict_get str_eqb s' done); reflexivity. }
  replace (map (mval (map fst sizes)) l) with (map (mixed []) l).
  - rewrite (G sizes []) by auto. f_equal. apply map_ext. intros [s|i v]; [|reflexivity]. unfold mixed, env0.
    destruct (dict_get str_eqb s sizes) eqn:E; [reflexivity|].
    replace (str_mem s (map fst sizes)) with false; [reflexivity|]. symmetry.
    destruct (str_mem s (map fst sizes)) eqn:Em; auto. apply str_mem_In in Em. exfalso.
    clear -E Em. induction sizes as [|[k v] d IH]; simpl in *; [tauto|].
    destruct (str_eqb s k) eqn:E'; [discriminate|]. destruct Em as [->|Em]; [rewrite str_eqb_refl in E'; discriminate|auto].
  - apply map_ext. intros [s|i v]; reflexivity.
Qed.

Lemma infer_step_ref o names l shape env need i len g :
  orders_ok o -> NoDup l -> incl g l ->
  length (filter (fun a => negb (is_known names a)) g) <= 1 ->
  nth_error shape i = Some len ->
  infer_step int_ops shape (map env l, need)
    (i, (map (pos_in l) (o 1 (filter (is_known names) g)),
         map (pos_in l) (filter (fun a => negb (is_known names a)) g)))
  = let* (env', need') := ref_step names (env, need) (len, g) in Ok (map env' l, need').
Proof.
  intros Ho Hnd Hg Hu Hi. unfold infer_step, ref_step.
  pose proof (filter_length_split (is_known names) g) as Hlen.
  assert (Hks : incl (filter (is_known names) g) l) by (intros a Ha; apply filter_In in Ha as [Ha _]; auto).
  assert (Hus : incl (filter (fun a => negb (is_known names a)) g) l) by (intros a Ha; apply filter_In in Ha as [Ha _]; auto).
  set (ks := filter (is_known names) g) in *.
  set (us := filter (fun a => negb (is_known names a)) g) in *.
  rewrite (proj2 (list_get_Ok _ _ _) Hi). cbn [bind].
  pose proof (Ho 1 ks) as Hp. pose proof (Permutation_length Hp) as Hpl.
  assert (Hm : mapM (list_get (map env l)) (map (pos_in l) (o 1 ks)) = Ok (map env (o 1 ks))).
  { rewrite mapM_map. apply mapM_total. intros a Ha. apply list_get_map. apply Hks. eapply Permutation_in; eauto. }
  assert (Hprod : fold_left Z.mul (map env (o 1 ks)) 1%Z = prodZ (map env ks)).
  { rewrite fold_left_mul, Z.mul_1_l. apply prodZ_perm. apply Permutation_map; auto. }
  rewrite Hm. cbn [bind both_ints d_int d_mul d_of_Z d_floordiv int_ops].
  assert (Hneed : (length (map (pos_in l) (o 1 ks)) + length (map (pos_in l) us) =? 1) = (length g =? 1)).
  { rewrite !map_length, Hpl. f_equal. lia. }
  rewrite Hneed. rewrite Hprod.
  assert (Hgen :
    (let* al := match map (pos_in l) us with
          | [] => if (len =? prodZ (map env ks))%Z then Ok (map env l) else Err EinopsError
          | u :: _ =>
              let* _ := if (prodZ (map env ks) =? 0)%Z then Err ZeroDivisionError
                        else raise_if (negb (len mod prodZ (map env ks) =? 0)%Z) EinopsError in
              let* q := if (prodZ (map env ks) =? 0)%Z then Err ZeroDivisionError else Ok (len / prodZ (map env ks))%Z in
              list_upd (map env l) u q
          end in Ok (al, if length g =? 1 then need else true)) =
    (let* (env', need') :=
       let* env' := match us with
          | [] => if (len =? prodZ (map env ks))%Z then Ok env else Err EinopsError
          | u :: _ => if (prodZ (map env ks) =? 0)%Z then Err ZeroDivisionError
                      else if (len mod prodZ (map env ks) =? 0)%Z then Ok (upd env u (len / prodZ (map env ks))%Z) else Err EinopsError
          end in
       Ok (env', if length g =? 1 then need else true) in Ok (map env' l, need'))).
  { destruct us as [|u us']; cbn [map].
    - destruct (len =? prodZ (map env ks))%Z; reflexivity.
    - destruct (prodZ (map env ks) =? 0)%Z; [reflexivity|].
      destruct (len mod prodZ (map env ks) =? 0)%Z; cbn [negb raise_if bind]; [|reflexivity].
      rewrite list_upd_map by (auto; apply Hus; left; auto). reflexivity. }
  destruct ks as [|k ks'] eqn:Eks.
  - assert (Eo : o 1 [] = []) by (apply Permutation_nil, Permutation_sym; auto).
    rewrite Eo. cbn [map].
    destruct us as [|u [|u' us']]; cbn [length] in Hu; try lia.
    + cbn [map] in Hgen |- *. exact Hgen.
    + cbn [map]. rewrite list_upd_map by (auto; apply Hus; left; auto). reflexivity.
  - destruct (o 1 (k :: ks')) as [|k' ks''] eqn:Eo; [simpl in Hpl; lia|].
    cbn [map]. cbn [map] in Hgen. exact Hgen.
Qed.

Lemma infer_loop_ref o names l shape lcomp env need :
  orders_ok o -> NoDup l -> incl (concat lcomp) l -> groups_ok names lcomp = true ->
  length shape = length lcomp ->
  foldM (infer_step int_ops shape)
    (enumerate (map (fun g => (map (pos_in l) (o 1 (filter (is_known names) g)),
                               map (pos_in l) (filter (fun a => negb (is_known names a)) g))) lcomp))
    (map env l, need)
  = let* (env', need') := ref_infer names shape lcomp (env, need) in Ok (map env' l, need').
Proof.
  intros Ho Hnd. unfold enumerate, ref_infer.
  assert (G : forall lcomp done sh env need, incl (concat lcomp) l -> groups_ok names lcomp = true ->
     shape = done ++ sh -> length sh = length lcomp ->
     foldM (infer_step int_ops shape)
       (enumerate_from (length done) (map (fun g => (map (pos_in l) (o 1 (filter (is_known names) g)),
                               map (pos_in l) (filter (fun a => negb (is_known names a)) g))) lcomp))
       (map env l, need)
     = let* (env', need') := foldM (ref_step names) (combine sh lcomp) (env, need) in Ok (map env' l, need')).
  { clear env need lcomp. induction lcomp as [|g lcomp IH]; intros done sh env need Hi Hg Hsh Hl.
    - destruct sh; [reflexivity|discriminate].
    - destruct sh as [|n sh]; [discriminate|]. cbn [combine foldM map enumerate_from].
      unfold groups_ok in Hg. cbn [forallb] in Hg. apply andb_true_iff in Hg as [Hg1 Hg2]. apply Nat.leb_le in Hg1.
      rewrite (infer_step_ref o names l shape env need _ n g); auto.
      + destruct (ref_step names (env, need) (n, g)) as [[env' need']|e]; [|reflexivity]. cbn [bind].
        replace (S (length done)) with (length (done ++ [n])) by (rewrite app_length; simpl; lia).
        apply IH; auto.
        * intros a Ha. apply Hi. simpl. apply in_or_app; auto.
        * rewrite <- app_assoc; auto.
      + intros a Ha. apply Hi. simpl. apply in_or_app; auto.
      + rewrite Hsh, nth_error_app2, Nat.sub_diag by lia. reflexivity. }
  intros Hi Hg Hl. apply (G lcomp [] shape); auto.
Qed.

Definition closed_cooked (o : orders) (lcomp rcomp : list (list axis)) (rids : list axis)
    (env : axis -> Z) (need : bool) : cooked Z :=
  let oa := order_after_of lcomp rcomp rids in
  let perm := map (pos_in (concat lcomp)) oa in
  {| k_init := if need then Some (firstn (length oa) (map env (all_axes o lcomp rids))) else None;
     k_reorder := if list_eq_dec Nat.eq_dec perm (seq 0 (length perm)) then None else Some perm;
     k_reduced := seq (length (kept_axes_of lcomp rcomp)) (length (reduced_axes_of lcomp rids));
     k_added := map (fun '(i, a) => (i, env a)) (added_of lcomp rcomp);
     k_final := if existsb (fun g => negb (length g =? 1)) rcomp
                then Some (map (fun g => prodZ (map env g)) rcomp) else None;
     k_naxes := length (added_of lcomp rcomp) + length oa |}.

Lemma existsb_map {B C} (f : C -> bool) (h : B -> C) l : existsb f (map h l) = existsb (fun x => f (h x)) l.
Proof. induction l as [|x l IH]; simpl; congruence. Qed.

Lemma existsb_ext_in {B} (f g : B -> bool) l : (forall x, In x l -> f x = g x) -> existsb f l = existsb g l.
Proof.
  induction l as [|x l IH]; intros H; simpl; auto. rewrite H by (left; auto). rewrite IH; auto.
  intros y Hy; apply H; right; auto.
Qed.

Lemma reconstruct_closed o lcomp rcomp lids rids shape sizes :
  orders_ok o -> weakly_resolved lcomp rcomp lids rids ->
  NoDup (map fst sizes) ->
  (forall s, In s (map fst sizes) -> In (AxName s) (concat lcomp) \/ In (AxName s) rids) ->
  groups_ok (map fst sizes) lcomp = true -> length shape = length lcomp ->
  reconstruct int_ops (closed_recipe o (map fst sizes) lcomp rcomp rids) shape sizes =
  let* (env, need) := ref_infer (map fst sizes) shape lcomp (env0 sizes, false) in
  Ok (closed_cooked o lcomp rcomp rids env need).
Proof.
  intros Ho HW Hns Hin Hg Hl. pose proof HW as [Hndl Hndr Hndi Hlids Hrids Han]. unfold reconstruct, closed_recipe.
  cbn [r_elementary r_name2elem r_input r_perm r_first_reduced r_added r_output].
  pose proof (all_axes_NoDup o lcomp rids Ho Hndl Hndi) as HndA.
  pose proof (fun a => all_axes_In o lcomp rids a Ho) as HinA.
  unfold closed_cooked.
  set (l := all_axes o lcomp rids) in *. cbv zeta.
  change (d_of_Z int_ops) with (fun z : Z => z). rewrite map_id.
  rewrite sizes_loop by (auto; intros s Hs; apply HinA; auto). cbn [bind].
  rewrite infer_loop_ref by (auto; intros a Ha; apply HinA; auto).
  destruct (ref_infer (map fst sizes) shape lcomp (env0 sizes, false)) as [[env need]|e]; [|reflexivity].
  cbn [bind].
  assert (Hr : forall g a, In g rcomp -> In a g -> In a l).
  { intros g a Hgr Ha. apply HinA, Hrids. apply in_concat; eauto. }
  rewrite mapM_map. rewrite (mapM_total _ (map env) rcomp).
  2: { intros g Hgr. rewrite mapM_map. apply mapM_total. intros a Ha. apply list_get_map. eauto. }
  cbn [bind]. rewrite mapM_map.
  rewrite (mapM_total _ (fun '(i, a) => (i, env a)) (added_of lcomp rcomp)).
  2: { intros [i a] Hia. unfold added_of in Hia. apply filter_In in Hia as [Hia _].
       apply (in_map snd) in Hia. unfold enumerate in Hia. rewrite enumerate_from_snd in Hia. simpl in Hia.
       rewrite list_get_map; [reflexivity|]. apply HinA. apply Hrids; auto. }
  cbn [bind]. f_equal. rewrite !map_length. f_equal.
  - unfold order_after_of. rewrite app_length. f_equal. lia.
  - rewrite existsb_map. rewrite map_map.
    rewrite (existsb_ext_in _ (fun g => negb (length g =? 1)) rcomp) by (intros g _; rewrite map_length; auto).
    destruct (existsb _ rcomp); [|reflexivity]. f_equal. apply map_ext. intros g. apply product_prodZ.
Qed.
