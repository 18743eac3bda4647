(** * Choosing elements of a batch *)
From Verif Require Import Py Tensor ListFacts TensorFacts SpecSem SpecGrammar SpecForms SpecEinsum SpecPattern SpecOps SpecElements SpecBatch SpecBatches SpecLinear Parsing Compile Recipe Ops Backends Api
  FrontFacts2 BatchFacts EinsumFacts3 EinsumFacts4 EinsumLaws EinsumLaws2 EinsumLaws4 EinsumBatch Layers SpecLayers Einsum LayerFacts EinMix SpecEinMix MixFacts5 MixFacts8 MixFacts9 MixLaws MixBatch ChunkFacts MixChunks EinsumChunks SpecSelect.

Section Select.
  Context {A : Type}.
  Implicit Types X x Y y Z : tensor A.
  Notation ins k s n := (firstn k s ++ n :: skipn k s).

  Lemma selects_exists k X n s js : wf X -> k <= length s -> shp X = ins k s n -> (forall j, In j js -> j < n) -> exists Z, selects k js X Z.
  Proof.
    intros W Hk Hs Hj.
    destruct (@unslice A (fun i z => exists j, nth_error js i = Some j /\ slice_of k j X z) k (length js) s Hk) as (Z & WZ & SZ & HZ).
    { intros i Hi. destruct (nth_error js i) as [j|] eqn:E; [|apply nth_error_None in E; lia].
      destruct (slice_exists X k n s j W Hk Hs) as (x & Sx & Ex); [apply Hj; exact (nth_error_In _ _ E)|]. exists x. split; [eauto|]. split; [apply Sx|exact Ex]. }
    exists Z. split; [exact WZ|]. split; [apply (count_ins k s); auto|]. intros i j E.
    destruct (HZ i) as (z & (j' & E' & Sz) & _ & Sz'); [apply nth_error_Some; congruence|]. exists z. rewrite E in E'. injection E' as <-. auto.
  Qed.
  Lemma selects_shape k X Z js : js <> [] -> selects k js X Z ->
    exists s, k <= length s /\ wf X /\ wf Z /\ shp X = ins k s (count_at k X) /\ shp Z = ins k s (length js).
  Proof.
    intros Hne (WZ & CZ & SL). destruct js as [|j0 js]; [contradiction|]. destruct (SL 0 j0 eq_refl) as (x & S1 & S2).
    exists (shp x). pose proof (slice_shape _ _ _ _ S1) as [E1 _]. pose proof (slice_shape _ _ _ _ S2) as [E2 _]. rewrite CZ in E1.
    destruct S2 as (WX & _ & Hk & _). auto.
  Qed.
  Lemma selects_fun k X Z Z' js : js <> [] -> selects k js X Z -> selects k js X Z' -> Z = Z'.
  Proof.
    intros Hne H H'. destruct (selects_shape _ _ _ _ Hne H) as (s & Hk & WX & WZ & EX & EZ). destruct (selects_shape _ _ _ _ Hne H') as (s' & Hk' & _ & WZ' & EX' & EZ').
    assert (s' = s). { rewrite EX in EX'. apply (f_equal (take_out k)) in EX'. rewrite (proj2 (put_back k _ _ Hk)), (proj2 (put_back k _ _ Hk')) in EX'. congruence. }
    subst s'. apply (slices_fun k (length js) s); auto; [congruence|]. intros i Hi. destruct (nth_error js i) as [j|] eqn:E; [|apply nth_error_None in E; lia].
    destruct H as (_ & _ & SL). destruct H' as (_ & _ & SL'). destruct (SL i j E) as (x & S1 & S2). destruct (SL' i j E) as (x' & S1' & S2').
    rewrite (slice_fun _ _ _ _ _ S2' S2) in S1'. eauto.
  Qed.

  Section Abstract.
    Variables (F F0 : tensor A -> result (tensor A)) (k k' : nat) (s : list nat).
    Hypothesis (Hk : k <= length s).
    Variable ok : tensor A -> Prop.
    Hypothesis (DOWN : forall X Y x i, ok X -> shp x = s -> slice_of k i X x -> F X = Ok Y ->
      count_at k' Y = count_at k X /\ exists y, slice_of k' i Y y /\ F0 x = Ok y).
    Hypothesis (UP : forall X n, ok X -> wf X -> n <> 0 -> shp X = ins k s n ->
      (forall i, i < n -> exists x y, slice_of k i X x /\ F0 x = Ok y) -> exists Y, F X = Ok Y).
    Lemma select js X Y Z : js <> [] -> ok X -> ok Z -> shp X = ins k s (count_at k X) -> selects k js X Z -> F X = Ok Y ->
      exists V, F Z = Ok V /\ selects k' js Y V.
    Proof.
      intros Hne OX OZ EX HS HY. destruct (selects_shape _ _ _ _ Hne HS) as (s' & Hk' & WX & WZ & EX' & EZ).
      assert (s' = s). { rewrite EX in EX'. apply (f_equal (take_out k)) in EX'. rewrite (proj2 (put_back k _ _ Hk)), (proj2 (put_back k _ _ Hk')) in EX'. congruence. }
      subst s'. destruct HS as (_ & CZ & SL).
      assert (SH : forall i x, slice_of k i X x -> shp x = s).
      { intros i x S. pose proof (slice_shape _ _ _ _ S) as [E _]. destruct S as (_ & _ & Hx & _). rewrite EX in E. apply (f_equal (take_out k)) in E.
        rewrite (proj2 (put_back k _ _ Hk)), (proj2 (put_back k _ _ Hx)) in E. congruence. }
      destruct (UP Z (length js) OZ WZ) as [V HV]; [destruct js; [contradiction|discriminate]|exact EZ| |].
      { intros i Hi. destruct (nth_error js i) as [j|] eqn:E; [|apply nth_error_None in E; lia]. destruct (SL i j E) as (x & S1 & S2).
        destruct (DOWN X Y x j OX (SH _ _ S2) S2 HY) as [_ (y & _ & Ey)]. eauto. }
      exists V. split; [exact HV|].
      assert (AT : forall i j, nth_error js i = Some j -> count_at k' V = length js /\ exists y, slice_of k' i V y /\ slice_of k' j Y y).
      { intros i j E. destruct (SL i j E) as (x & S1 & S2). destruct (DOWN X Y x j OX (SH _ _ S2) S2 HY) as [_ (y & Sy & Ey)].
        destruct (DOWN Z V x i OZ (SH _ _ S2) S1 HV) as [C (y' & Sy' & Ey')]. assert (y' = y) by congruence. subst y'. split; [congruence|eauto]. }
      destruct js as [|j0 js]; [contradiction|]. destruct (AT 0 j0 eq_refl) as [C (y & Sy & _)]. split; [apply Sy|]. split; [exact C|]. intros i j E. apply (AT i j E).
    Qed.
  End Abstract.

  Lemma op_select (r : runtime A) (Hok : runtime_ok r) b (p p' : pystr) (L1 L2 R1 R2 : expr) (sizes : list (pystr * Z)) f e js X Y Z :
    b <> ell_name -> reads (rt_unicode r) p (L1 ++ L2) (R1 ++ R2) ->
    reads (rt_unicode r) p' (L1 ++ Atom (AName b) :: L2) (R1 ++ Atom (AName b) :: R2) ->
    ~ In b (map fst sizes) -> NoDup (map fst sizes) -> SpecBatch.operation r p sizes f ->
    rank_fits (L1 ++ Atom (AName b) :: L2) (length (shp X)) e -> js <> [] ->
    selects (length (left_groups e L1)) js X Z -> f (One X) p' = Ok Y ->
    exists V, f (One Z) p' = Ok V /\ selects (length (right_groups e (L1 ++ L2) R1)) js Y V.
  Proof.
    intros Hb Hp Hp' Hs Hn Hop Hr Hne HS HY. destruct (selects_shape _ _ _ _ Hne HS) as (s & Hk & WX & WZ & EX & EZ).
    assert (Hr' : rank_fits (L1 ++ L2) (length s) e).
    { apply (more_rank b L1 L2). rewrite EX, ins_length in Hr by exact Hk. exact Hr. }
    apply (select (fun x => f (One x) p') (fun x => f (One x) p) (length (left_groups e L1)) (length (right_groups e (L1 ++ L2) R1)) s Hk (fun _ => True)) with (X := X); auto.
    - intros X0 Y0 x i _ Sx HS0 HY0. apply (op_slices r Hok b p p' L1 L2 R1 R2 sizes Hb Hp Hp' Hs Hn f e X0 Y0 x i); auto. rewrite Sx. exact Hr'.
    - intros X0 n _ W N Sh H. exact (op_returns r Hok b p p' L1 L2 R1 R2 sizes Hb Hp Hp' Hs Hn f e X0 s n Hop W N Hk Sh Hr' H).
  Qed.

  Lemma layer_select (r : runtime A) (Hok : runtime_ok r) b (p p' : pystr) (L1 L2 R1 R2 : expr) (sizes : list (pystr * Z)) f e (M : layer (tensor A)) js X Y Z :
    b <> ell_name -> reads (rt_unicode r) p (L1 ++ L2) (R1 ++ R2) ->
    reads (rt_unicode r) p' (L1 ++ Atom (AName b) :: L2) (R1 ++ Atom (AName b) :: R2) ->
    ~ In b (map fst sizes) -> NoDup (map fst sizes) -> SpecBatch.operation r p sizes f ->
    like_function r M p' (fun x => f (One x) p') ->
    rank_fits (L1 ++ Atom (AName b) :: L2) (length (shp X)) e -> e < 8 -> js <> [] ->
    selects (length (left_groups e L1)) js X Z -> call_layer r M X = Ok Y ->
    exists V, call_layer r M Z = Ok V /\ selects (length (right_groups e (L1 ++ L2) R1)) js Y V.
  Proof.
    intros Hb Hp Hp' Hs Hn Hop (l & rr & Hl & Hlike) Hr He Hne HS HY.
    destruct (reads_fun (rt_unicode r) (ro_unicode _ Hok) _ _ _ _ _ Hl Hp') as [-> ->].
    destruct (selects_shape _ _ _ _ Hne HS) as (s & Hk & WX & WZ & EX & EZ).
    assert (EL : length (shp Z) = length (shp X)) by (rewrite EX, EZ, !ins_length by exact Hk; reflexivity).
    rewrite (proj1 (Hlike X) e Hr He) in HY.
    destruct (op_select r Hok b p p' L1 L2 R1 R2 sizes f e js X Y Z Hb Hp Hp' Hs Hn Hop Hr Hne HS HY) as (V & HV & SV).
    exists V. split; [|exact SV]. rewrite (proj1 (Hlike Z) e); [exact HV|rewrite EL; exact Hr|exact He].
  Qed.
End Select.

Section Mix.
  Context {A : Type} (add mul : A -> A -> A) (zero one : A).
  Context (add_comm : forall a b, add a b = add b a) (add_assoc : forall a b c, add a (add b c) = add (add a b) c) (mul_one : forall a, mul a one = a).
  Context (lib : pystr -> list (tensor A) -> result (tensor A)) (HC : einsum_contract add mul zero one lib).
  Context (iadd : tensor A -> tensor A -> result (tensor A)) (HI : iadd_contract add iadd).
  Context (r : runtime A) (Hok : runtime_ok r) (os os' : nat -> orders) (Hos : forall n, orders_ok (os n)) (Hos' : forall n, orders_ok (os' n)).
  Notation U := (rt_unicode r).
  Context (b p p' wt : pystr) (bt : option pystr) (sizes : list (pystr * Z)) (L1 L2 R1 R2 W : expr).
  Notation it := (Atom (AName b)).
  Notation L := (L1 ++ L2).
  Notation R := (R1 ++ R2).
  Notation L' := (L1 ++ it :: L2).
  Notation R' := (R1 ++ it :: R2).
  Context (Hb : b <> ell_name) (Hp : reads U p L R) (Hp' : reads U p' L' R') (Hsz : ~ In b (map fst sizes)).
  Context (WW : written U wt W) (PL : plain L) (PR : plain R) (PL' : plain L') (PR' : plain R') (PW : plain W) (Hns : NoDup (map fst sizes)).
  Context (M M' : einmix (tensor A)) (HM : EinMix U os os' p wt bt sizes = Ok M) (HM' : EinMix U os os' p' wt bt sizes = Ok M').
  Context (e : nat).
  Notation k := (length (left_groups e L1)).
  Notation k' := (length (right_groups e L R1)).
  Notation known len := (forall g, In g (left_groups e L') -> filter (unknown (map fst sizes)) g <> [] -> prodn (map len (filter (fun a => negb (unknown (map fst sizes) a)) g)) <> 0).

  Theorem einmix_select len js X Z w (c c' : option (tensor A)) :
    rank_fits L' (length (shp X)) e -> fits len (left_groups e L') (right_groups e L' R') (shp X) sizes -> known len ->
    (em_pre M <> None \/ em_post M <> None -> e < 8) -> (em_pre M' <> None \/ em_post M' <> None -> e < 8) ->
    wf w -> map Z.of_nat (shp w) = em_weight M' -> bias_of (em_bias M') c' -> bias_more (length (written_names R1)) c' c ->
    js <> [] -> selects k js X Z ->
    exists Y V, call_einmix r lib iadd M' w c' X = Ok Y /\ call_einmix r lib iadd M' w c' Z = Ok V /\ selects k' js Y V.
  Proof.
    intros Hr Hf Hd He He' Ww Sw Bc Bm Hne HS. destruct (selects_shape _ _ _ _ Hne HS) as (s & Hk & WX & WZ & EX & EZ).
    assert (Hr' : rank_fits L (length s) e).
    { apply (more_rank b L1 L2). rewrite EX, ins_length in Hr by exact Hk. exact Hr. }
    pose proof (fun X0 x len0 i => einmix_batch add mul zero one add_comm add_assoc mul_one lib HC iadd HI r Hok os os' Hos Hos' b p p' wt bt sizes L1 L2 R1 R2 W Hb Hp Hp' Hsz WW PL PR PL' PR' PW Hns M M' HM HM' e len0 X0 x w c c' i) as B.
    assert (OX : can b sizes L1 L2 R1 R2 e X) by (exists len; auto).
    assert (OZ : can b sizes L1 L2 R1 R2 e Z).
    { apply (can_piece r Hok os os' Hos b p p' wt bt sizes L1 L2 R1 R2 W Hb Hp Hp' Hsz WW PL PR PW Hns M HM e X Z s Hk EX); [|exact OX]. rewrite EZ. f_equal. f_equal. symmetry. apply (count_ins k s); auto. }
    assert (EY : exists Y, call_einmix r lib iadd M' w c' X = Ok Y).
    { destruct js as [|j0 js]; [contradiction|]. destruct HS as (_ & _ & SL). destruct (SL 0 j0 eq_refl) as (x & _ & S2).
      assert (Sx : shp x = s). { pose proof (slice_shape _ _ _ _ S2) as [E _]. assert (Hx : k <= length (shp x)) by apply S2. rewrite EX in E. apply (f_equal (take_out k)) in E.
        rewrite (proj2 (put_back k _ _ Hk)), (proj2 (put_back k _ _ Hx)) in E. congruence. }
      rewrite <- Sx in Hr'. destruct (B X x len j0 Hr' Hf Hd He He' S2 Ww Sw Bc Bm) as (_ & _ & Y & _ & E & _). eauto. }
    destruct EY as [Y EY]. exists Y.
    destruct (select (call_einmix r lib iadd M' w c') (call_einmix r lib iadd M w c) k k' s Hk (can b sizes L1 L2 R1 R2 e)) with (js := js) (X := X) (Y := Y) (Z := Z) as (V & HV & SV); auto.
    - intros X0 Y0 x i (len0 & Hf0 & Hd0) Sx HS0 HY. rewrite <- Sx in Hr'. destruct (B X0 x len0 i Hr' Hf0 Hd0 He He' HS0 Ww Sw Bc Bm) as (_ & _ & Y1 & y1 & E1 & E3 & E4 & E5).
      assert (Y1 = Y0) by congruence. subst Y1. split; [exact E5|]. exists y1. auto.
    - intros X0 n (len0 & Hf0 & Hd0) W0 Hn S0 _. destruct (slice_exists X0 k n s 0 W0 Hk S0) as (x & HS0 & Sx); [lia|]. rewrite <- Sx in Hr'.
      destruct (B X0 x len0 0 Hr' Hf0 Hd0 He He' HS0 Ww Sw Bc Bm) as (_ & _ & Y1 & y1 & E1 & _). eauto.
    - exists V. auto.
  Qed.
End Mix.

Section Contraction.
  Context {A : Type} (b : pystr) (js : list nat).
  Notation lb := (SpecEinsum.LName b).

  Lemma chosen_slice Ls Ls' (Xs Zs : list (tensor A)) i j : chosen b js Ls Ls' Xs Zs -> nth_error js i = Some j ->
    exists xs, batch_of b i Ls Ls' xs Zs /\ batch_of b j Ls Ls' xs Xs.
  Proof.
    intros H E. assert (Hne : js <> []) by (intros ->; destruct i; discriminate).
    induction H as [|L x Ls Ls' Xs Zs H IH|L1 L2 X Z Ls Ls' Xs Zs HS H IH].
    - exists []. split; constructor.
    - destruct IH as (xs & I1 & I2). exists (x :: xs). split; constructor; assumption.
    - destruct IH as (xs & I1 & I2). destruct (selects_shape _ _ _ _ Hne HS) as (s & Hk & WX & WZ & EX & EZ).
      destruct HS as (_ & _ & SL). destruct (SL i j E) as (x & S1 & S2).
      assert (Ek : spare (to_term (L1 ++ EName b :: L2)) X = spare (to_term (L1 ++ L2)) x).
      { apply spare_less. pose proof (slice_shape _ _ _ _ S2) as [Ex _]. rewrite Ex, ins_length; [reflexivity|]. apply S2. }
      rewrite Ek in S1, S2. exists (x :: xs). split; apply batch_more; assumption.
  Qed.
  Lemma chosen_resized Ls Ls' (Xs Zs : list (tensor A)) len : js <> [] -> chosen b js Ls Ls' Xs Zs -> ~ In b (all_names Ls) ->
    Forall2 (operand_fits len) (map to_term Ls') Xs -> resized_all b (length js) (map to_term Ls') Xs Zs.
  Proof.
    intros Hne H. unfold all_names. induction H as [|L x Ls Ls' Xs Zs H IH|L1 L2 X Z Ls Ls' Xs Zs HS H IH]; cbn [map flat_map]; intros Hb F; inversion F as [|? ? ? ? F1 F2]; subst; constructor;
      try (apply IH; [intros K; apply Hb, in_app_iff; auto|assumption]).
    - destruct F1 as (W & _ & F1). split; [exact W|]. symmetry. apply map2_same; [|apply Forall2_length in F1; exact F1].
      apply no_label. intros K. apply Hb, in_app_iff. auto.
    - destruct (selects_shape _ _ _ _ Hne HS) as (s & Hk & WX & WZ & EX & EZ). split; [exact WZ|].
      set (k := length (term_labs (spare (to_term (L1 ++ EName b :: L2)) X) (to_term L1))) in *.
      destruct F1 as (_ & _ & F1). apply Forall2_length in F1. rewrite labs_more in *. rewrite EZ, EX. unfold k. symmetry. apply map2_ins.
      + intros K. apply Hb, in_app_iff. left. rewrite names_less. apply in_app_iff in K. apply in_app_iff.
        destruct K as [K|K]; apply term_labs_name in K; rewrite to_term_names in K; auto.
      + rewrite EX, ins_length in F1 by exact Hk. rewrite app_length in *. cbn [length] in F1. lia.
  Qed.

  Context (U : unicode) (HU : unicode_ok U) (add mul : A -> A -> A) (zero one : A).
  Hypothesis addC : forall a b, add a b = add b a.
  Hypothesis addA : forall a b c, add a (add b c) = add (add a b) c.
  Context (lib : pystr -> list (tensor A) -> result (tensor A)) (HL : einsum_contract add mul zero one lib).

  Theorem einsum_select p p' len Ls Ls' R1 R2 (Xs Zs : list (tensor A)) :
    einsum_reads U p Ls (R1 ++ R2) -> einsum_reads U p' Ls' (R1 ++ EName b :: R2) ->
    chosen b js Ls Ls' Xs Zs -> js <> [] -> ~ In b (all_names Ls) -> length (distinct (all_names Ls')) <= 52 ->
    good_call len (map to_term Ls') (to_term (R1 ++ EName b :: R2)) Xs ->
    exists Y V, einsum_with U lib (map inl Xs ++ [inr p']) = Ok Y /\ einsum_with U lib (map inl Zs ++ [inr p']) = Ok V /\
      selects (length (term_labs (list_max (map2 spare (map to_term Ls') Xs)) (to_term R1))) js Y V.
  Proof.
    intros Hr Hr' HS Hne Hb H52 Hg.
    pose proof (resized_good b _ _ _ _ _ _ (chosen_resized _ _ _ _ len Hne HS Hb (proj1 Hg)) Hg) as Hgz.
    assert (AT : forall i j, nth_error js i = Some j -> exists Y V z,
      einsum_with U lib (map inl Xs ++ [inr p']) = Ok Y /\ einsum_with U lib (map inl Zs ++ [inr p']) = Ok V /\
      let K := length (term_labs (list_max (map2 spare (map to_term Ls') Xs)) (to_term R1)) in
      slice_of K i V z /\ slice_of K j Y z /\ count_at K V = length js).
    { intros i j E. destruct (chosen_slice _ _ _ _ i j HS E) as (xs & B1 & B2).
      destruct (einsum_batch U HU add mul zero one addC addA lib HL p p' b i _ Ls Ls' R1 R2 xs Zs Hr Hr' B1 Hb H52 Hgz) as (V & z & E1 & E2 & E3 & E4).
      destruct (einsum_batch U HU add mul zero one addC addA lib HL p p' b j len Ls Ls' R1 R2 xs Xs Hr Hr' B2 Hb H52 Hg) as (Y & z' & F1 & F2 & F3 & F4).
      assert (z' = z) by congruence. subst z'. exists Y, V, z. split; [exact F1|]. split; [exact E1|]. cbv zeta. rewrite (batch_spare B2).
      split; [exact E3|]. split; [exact F3|]. rewrite E4. unfold resize. destruct (slab_dec _ _); [reflexivity|congruence]. }
    destruct js as [|j0 js']; [contradiction|]. destruct (AT 0 j0 eq_refl) as (Y & V & z & EY & EV & S1 & S2 & C). exists Y, V. split; [exact EY|]. split; [exact EV|].
    split; [apply S1|]. split; [exact C|]. intros i j E. destruct (AT i j E) as (Y1 & V1 & z1 & EY1 & EV1 & T1 & T2 & _).
    assert (Y1 = Y) by congruence. assert (V1 = V) by congruence. subst. eauto.
  Qed.
End Contraction.
