(** * einsum and EinMix on tensors that agree element by element *)
From Verif Require Import Py Tensor ListFacts TensorFacts SpecSem SpecGrammar SpecPattern SpecForms SpecOps SpecElements SpecLinear Parsing Recipe Ops Backends Einsum Api StepFacts ReduceFacts ElementFacts FrontFacts FrontFacts3 ParseFacts ParseFacts2 MainFacts EinsumFacts EinsumFacts2 EinsumFacts3 EinsumFacts4 EinsumLaws EinsumLaws2 EinsumLaws4
  ParseFacts3 Layers LayerFacts EinMix SpecEinMix MixFacts MixFacts5 MixFacts7 MixFacts8 MixFacts9 MixLaws MixLaws2 SpecEinsum.

Lemma index_at s n : n < prodn s -> exists idx, inb s idx = true /\ ravel s idx = n.
Proof.
  intros H. destruct (nth_error (indices s) n) as [idx|] eqn:E.
  - exists idx. split; [apply indices_In; eapply nth_error_In; eauto|apply indices_nth_inv; exact E].
  - apply nth_error_None in E. rewrite indices_length in E. lia.
Qed.
Lemma gindex_onto (len : label -> nat) gr idx : NoDup (concat gr) -> inb (gshape len gr) idx = true -> exists ix, within len ix (concat gr) /\ gindex len ix gr = idx.
Proof.
  intros Hn Hi. assert (Hl : ravel (gshape len gr) idx < prodn (map len (concat gr))) by (rewrite <- prodn_gshape; apply ravel_lt; exact Hi).
  destruct (index_at _ _ Hl) as (v & Hv & Er). set (ix := assign label_eqb (fun _ => 0) (concat gr) v).
  assert (Em : map ix (concat gr) = v). { apply (assign_map label_eqb label_eqb_eq); [exact Hn|]. apply inb_length in Hv. now rewrite map_length in Hv. }
  assert (Hw : within len ix (concat gr)) by (apply inb_within; rewrite Em; exact Hv).
  exists ix. split; [exact Hw|]. apply (ravel_inj (gshape len gr)); [apply inb_gindex; exact Hw|exact Hi|]. rewrite ravel_gindex, Em. exact Er.
Qed.

Section Rel.
  Context {A B : Type} (R : A -> B -> Prop).
  Notation alike := (SpecElements.alike R).
  Lemma alike_wf t t' : alike t t' -> wf t -> wf t'.
  Proof. intros [E F] W. unfold wf in *. rewrite <- E, <- W. symmetry. eapply Forall2_length; eauto. Qed.
  Lemma alike_get t t' idx : alike t t' -> match get t idx, get t' idx with Some a, Some a' => R a a' | None, None => True | _, _ => False end.
  Proof.
    intros H. pose proof (get_alike R t t' idx H) as G. unfold getr in G. destruct (get t idx), (get t' idx); cbn in G; auto.
  Qed.
  Lemma alike_of y y' : wf y -> wf y' -> shp y = shp y' -> (forall idx a a', get y idx = Some a -> get y' idx = Some a' -> R a a') -> alike y y'.
  Proof.
    intros W W' E H. split; [exact E|]. unfold wf in *.
    assert (L : length (dat y) = length (dat y')) by congruence.
    assert (G : forall n a a', nth_error (dat y) n = Some a -> nth_error (dat y') n = Some a' -> R a a').
    { intros n a a' Hn Hn'. assert (Hl : n < prodn (shp y)) by (rewrite <- W; apply nth_error_Some; congruence).
      destruct (index_at _ _ Hl) as (idx & Hi & Er). apply (H idx); unfold get; rewrite <- ?E, Hi, Er; assumption. }
    clear -L G. revert L G. generalize (dat y) (dat y'). induction l as [|a l IH]; intros [|a' l'] L G; try discriminate; [constructor|].
    constructor; [apply (G 0 a a' eq_refl eq_refl)|]. apply IH; [cbn in L; lia|]. intros n b b'. apply (G (S n)).
  Qed.

  Context (add mul : A -> A -> A) (zero one : A) (add' mul' : B -> B -> B) (zero' one' : B).
  Hypothesis Radd : forall a a' b b', R a a' -> R b b' -> R (add a b) (add' a' b').
  Hypothesis Rmul : forall a a' b b', R a a' -> R b b' -> R (mul a b) (mul' a' b').
  Hypothesis Rzero : R zero zero'.
  Hypothesis Rone : R one one'.

  Lemma sum_alike l l' : Forall2 R l l' -> R (fold_right add zero l) (fold_right add' zero' l').
  Proof. induction 1; cbn; auto. Qed.
  Lemma map2_alike l l' m m' : Forall2 R l l' -> Forall2 R m m' -> Forall2 R (map2 mul l m) (map2 mul' l' m').
  Proof. intros H. revert m m'. induction H as [|a a' l l' Ha _ IH]; intros m m' Hm; [constructor|]. destruct Hm; cbn; constructor; auto. Qed.

  Implicit Types (Ts : list (term (X := pystr))).
  Lemma spares_alike xs xs' : Forall2 alike xs xs' -> forall Ts, map2 spare Ts xs = map2 spare Ts xs'.
  Proof. induction 1 as [|x x' xs xs' [E _] _ IH]; intros [|t Ts]; cbn; try reflexivity. rewrite IH. unfold spare. now rewrite E. Qed.
  Lemma labs_alike (t : term (X := pystr)) x x' : alike x x' -> operand_labs t x = operand_labs t x'.
  Proof. intros [E _]. unfold operand_labs, spare. now rewrite E. Qed.
  Lemma all_alike xs xs' : Forall2 alike xs xs' -> forall Ts, all_labs Ts xs = all_labs Ts xs'.
  Proof. unfold all_labs. induction 1 as [|x x' xs xs' E _ IH]; intros [|t Ts]; cbn; try reflexivity. now rewrite IH, (labs_alike t x x' E). Qed.
  Lemma element_alike ix (t : term (X := pystr)) x x' : alike x x' -> R (element_at zero ix t x) (element_at zero' ix t x').
  Proof.
    intros H. unfold element_at. rewrite <- (labs_alike t x x' H), <- (alike_shape R x x' H).
    pose proof (alike_get x x' (map2 (fun l d => if d =? 1 then 0 else ix l) (operand_labs t x) (shp x)) H) as G.
    destruct (get x _), (get x' _); auto; contradiction.
  Qed.
  Lemma product_alike ix Ts xs xs' : Forall2 alike xs xs' -> R (product_at mul zero one ix Ts xs) (product_at mul' zero' one' ix Ts xs').
  Proof.
    unfold product_at. intros H. revert Ts. induction H as [|x x' xs xs' E _ IH]; intros [|t Ts]; cbn; auto. apply Rmul; [apply element_alike; exact E|apply IH].
  Qed.
  Lemma good_alike len Ts S xs xs' : Forall2 alike xs xs' -> good_call len Ts S xs -> good_call len Ts S xs'.
  Proof.
    intros H (F & H1 & H2 & H3 & H4 & H5). split; [|split; [exact H1|split; [exact H2|split; [exact H3|split; [exact H4|]]]]].
    - clear -F H. revert Ts F. induction H as [|x x' xs xs' E _ IH]; intros Ts F; inversion F as [|t ? Ts0 ? Hf F']; subst; constructor; auto.
      destruct Hf as (Wx & Hd & Hf). split; [eapply alike_wf; eauto|]. split; [exact Hd|]. rewrite <- (labs_alike t x x' E), <- (alike_shape R x x' E). exact Hf.
    - intros k Hk. rewrite <- (spares_alike xs xs' H) in Hk. destruct (H5 k Hk) as (t & x & Hin & Hx). clear -H Hin Hx.
      revert Ts Hin. induction H as [|x0 x0' xs xs' E _ IH]; intros [|t0 Ts] Hin; cbn in Hin; try tauto. destruct Hin as [Hin|Hin].
      + injection Hin as -> ->. exists t, x0'. split; [left; reflexivity|]. rewrite <- (labs_alike t x x0' E), <- (alike_shape R x x0' E). exact Hx.
      + destruct (IH Ts Hin) as (t1 & x1 & I1 & I2). exists t1, x1. split; [right; exact I1|exact I2].
  Qed.

  Section Einsum.
    Context (U : unicode) (HU : unicode_ok U).
    Hypothesis addC : forall a b, add a b = add b a.
    Hypothesis addA : forall a b c, add a (add b c) = add (add a b) c.
    Hypothesis addC' : forall a b, add' a b = add' b a.
    Hypothesis addA' : forall a b c, add' a (add' b c) = add' (add' a b) c.
    Context (lib : pystr -> list (tensor A) -> result (tensor A)) (HL : einsum_contract add mul zero one lib).
    Context (lib' : pystr -> list (tensor B) -> result (tensor B)) (HL' : einsum_contract add' mul' zero' one' lib').
    Theorem einsum_alike p Ls S len xs xs' : einsum_reads U p Ls S -> length (distinct (all_names Ls)) <= 52 ->
      good_call len (map to_term Ls) (to_term S) xs -> Forall2 alike xs xs' ->
      exists y y', einsum_with U lib (map inl xs ++ [inr p]) = Ok y /\ einsum_with U lib' (map inl xs' ++ [inr p]) = Ok y' /\ alike y y'.
    Proof.
      intros Hr H52 Hg HA. pose proof (good_alike _ _ _ _ _ HA Hg) as Hg'.
      destruct (einsum_formula U HU add mul zero one addC addA lib p Ls S xs len HL Hr H52 Hg) as (y & Ey & Fy).
      destruct (einsum_formula U HU add' mul' zero' one' addC' addA' lib' p Ls S xs' len HL' Hr H52 Hg') as (y' & Ey' & Fy').
      exists y, y'. split; [exact Ey|]. split; [exact Ey'|].
      destruct (summed_exists (map to_term Ls) (to_term S) xs) as (ms & Hms).
      assert (Eo : out_labs (map to_term Ls) xs (to_term S) = out_labs (map to_term Ls) xs' (to_term S)) by (unfold out_labs; now rewrite (spares_alike xs xs' HA)).
      assert (Hms' : summed (map to_term Ls) (to_term S) xs' ms) by (destruct Hms as [N M]; split; [exact N|]; intros l; rewrite M, Eo, (all_alike xs xs' HA); tauto).
      destruct (Fy ms Hms) as (W & E & G). destruct (Fy' ms Hms') as (W' & E' & G'). rewrite <- Eo in E', G'. set (o := out_labs (map to_term Ls) xs (to_term S)) in *.
      apply alike_of; auto; [congruence|]. intros idx a a' Ha Ha'.
      assert (Hi : inb (map len o) idx = true). { rewrite <- E. unfold get in Ha. destruct (inb (shp y) idx); [reflexivity|discriminate]. }
      assert (No : NoDup o). { destruct Hg as (_ & N1 & _ & N2 & _). apply term_labs_NoDup; auto. }
      assert (Em : map (assign (lab_eqb str_eqb) (fun _ => 0) o idx) o = idx).
      { apply (assign_map (lab_eqb str_eqb) slab_eq); [exact No|]. apply inb_length in Hi. now rewrite map_length in Hi. }
      rewrite <- Em in Ha, Ha', Hi. apply inb_within in Hi. rewrite G in Ha by exact Hi. rewrite G' in Ha' by exact Hi. injection Ha as <-. injection Ha' as <-.
      apply sum_alike, Forall2_maps. intros v _. apply product_alike. exact HA.
    Qed.
  End Einsum.

  (** the formula of EinMix *)
  Lemma Some_alike (f : list nat -> option A) (f' : list nat -> option B) l xs xs' :
    (forall v, match f v, f' v with Some a, Some a' => R a a' | None, None => True | _, _ => False end) ->
    map f l = map Some xs -> map f' l = map Some xs' -> Forall2 R xs xs'.
  Proof.
    intros H. revert xs xs'. induction l as [|v l IH]; intros [|x xs] [|x' xs'] E E'; try discriminate; [constructor|]. cbn in E, E'. injection E as Ev E. injection E' as Ev' E'.
    constructor; [|apply IH; auto]. specialize (H v). now rewrite Ev, Ev' in H.
  Qed.
  Lemma mixes_alike gl gr W S len x x' w w' b b' y y' : NoDup (concat gr) -> alike x x' -> alike w w' ->
    match b, b' with None, None => True | Some (E, c), Some (E', c') => E = E' /\ alike c c' | _, _ => False end ->
    mixes add mul zero gl gr W S len x w b y -> mixes add' mul' zero' gl gr W S len x' w' b' y' -> alike y y'.
  Proof.
    intros Hn Hx Hw Hb (Wy & Sy & Gy) (Wy' & Sy' & Gy'). apply alike_of; auto; [congruence|]. intros idx a a' Ha Ha'.
    assert (Hi : inb (shp y) idx = true) by (unfold get in Ha; destruct (inb (shp y) idx); [reflexivity|discriminate]).
    rewrite Sy in Hi. destruct (gindex_onto len gr idx Hn Hi) as (ix & Hix & <-).
    destruct (Gy ix Hix) as (xs & ws & E1 & E2 & E3). destruct (Gy' ix Hix) as (xs' & ws' & E1' & E2' & E3'). cbn zeta in E3, E3'.
    assert (Rt : R (fold_right add zero (map2 mul xs ws)) (fold_right add' zero' (map2 mul' xs' ws'))).
    { apply sum_alike, map2_alike; [unfold elements in *|unfold weight_elements in *]; eapply Some_alike; eauto; intros v; apply alike_get; assumption. }
    destruct b as [[E c]|], b' as [[E' c']|]; try contradiction; [|congruence].
    destruct Hb as [<- Hc]. destruct E3 as (u & U1 & U2). destruct E3' as (u' & U1' & U2').
    pose proof (alike_get c c' (bias_index E S ix) Hc) as G. rewrite U1, U1' in G. rewrite U2 in Ha. rewrite U2' in Ha'. injection Ha as <-. injection Ha' as <-. auto.
  Qed.
End Rel.

(** two layers made from the same texts and sizes *)
Section Layers.
  Context {A B : Type} (R : A -> B -> Prop) (add mul : A -> A -> A) (zero one : A) (add' mul' : B -> B -> B) (zero' one' : B).
  Hypothesis Radd : forall a a' b b', R a a' -> R b b' -> R (add a b) (add' a' b').
  Hypothesis Rmul : forall a a' b b', R a a' -> R b b' -> R (mul a b) (mul' a' b').
  Hypothesis Rzero : R zero zero'.
  Context (add_comm : forall a b, add a b = add b a) (add_assoc : forall a b c, add a (add b c) = add (add a b) c) (mul_one : forall a, mul a one = a).
  Context (add_comm' : forall a b, add' a b = add' b a) (add_assoc' : forall a b c, add' a (add' b c) = add' (add' a b) c) (mul_one' : forall a, mul' a one' = a).
  Context (lib : pystr -> list (tensor A) -> result (tensor A)) (HC : einsum_contract add mul zero one lib).
  Context (lib' : pystr -> list (tensor B) -> result (tensor B)) (HC' : einsum_contract add' mul' zero' one' lib').
  Context (iadd : tensor A -> tensor A -> result (tensor A)) (HI : iadd_contract add iadd).
  Context (iadd' : tensor B -> tensor B -> result (tensor B)) (HI' : iadd_contract add' iadd').
  Context (r : runtime A) (Hok : runtime_ok r) (r' : runtime B) (Hok' : runtime_ok r') (EU : rt_unicode r = rt_unicode r').
  Context (os os' : nat -> orders) (Hos : forall n, orders_ok (os n)) (Hos' : forall n, orders_ok (os' n)).
  Notation U := (rt_unicode r).
  Context (p wt : pystr) (bt : option pystr) (sizes : list (pystr * Z)) (L S W : expr).
  Context (Hr : reads U p L S) (WW : written U wt W) (PL : plain L) (PR : plain S) (PW : plain W) (Hns : NoDup (map fst sizes)).
  Context (M : einmix (tensor A)) (HM : EinMix U os os' p wt bt sizes = Ok M) (M' : einmix (tensor B)) (HM' : EinMix U os os' p wt bt sizes = Ok M').
  Context (e : nat) (len : label -> nat).

  Theorem einmix_alike x x' w w' c c' : wf x -> rank_fits L (length (shp x)) e -> fits len (left_groups e L) (right_groups e L S) (shp x) sizes ->
    (forall g, In g (left_groups e L) -> filter (unknown (map fst sizes)) g <> [] -> prodn (map len (filter (fun a => negb (unknown (map fst sizes) a)) g)) <> 0) ->
    (em_pre M <> None \/ em_post M <> None -> e < 8) -> (em_pre M' <> None \/ em_post M' <> None -> e < 8) ->
    wf w -> map Z.of_nat (shp w) = em_weight M -> bias_of (em_bias M) c ->
    SpecElements.alike R x x' -> SpecElements.alike R w w' -> match c, c' with None, None => True | Some b, Some b' => SpecElements.alike R b b' | _, _ => False end ->
    exists y y', call_einmix r lib iadd M w c x = Ok y /\ call_einmix r' lib' iadd' M' w' c' x' = Ok y' /\ SpecElements.alike R y y'.
  Proof.
    intros Wx Hrk Hf Hd He He' Ww Sw Bc Ax Aw Ac. pose proof (ro_unicode _ Hok) as HU.
    set (lz := fun s => Z.of_nat (len (SpecPattern.LName s))).
    assert (Hz : forall s z, In (s, z) sizes -> lz s = z) by (intros s z H; apply (proj2 (proj2 Hf)), H).
    destruct (mix_shapes U HU os os' Hos p wt bt sizes Hns L S W Hr WW PL PR PW M HM lz Hz) as (S1 & _ & S2).
    destruct (mix_shapes U HU os os' Hos p wt bt sizes Hns L S W Hr WW PL PR PW M' HM' lz Hz) as (S1' & _ & S2').
    pose proof (alike_wf R x x' Ax Wx) as Wx'. pose proof (alike_wf R w w' Aw Ww) as Ww'.
    assert (Sw' : map Z.of_nat (shp w') = em_weight M') by (rewrite <- (alike_shape R w w' Aw); congruence).
    assert (HBs : exists E,
      match bt with None => option_map (pair E) c = None | Some t => exists B1 b0, option_map (pair E) c = Some (B1, b0) /\ written U t B1 /\ wf b0 /\ Some (map Z.of_nat (shp b0)) = em_bias M end /\
      match bt with None => option_map (pair E) c' = None | Some t => exists B1 b0, option_map (pair E) c' = Some (B1, b0) /\ written U t B1 /\ wf b0 /\ Some (map Z.of_nat (shp b0)) = em_bias M' end /\
      match option_map (pair E) c, option_map (pair E) c' with None, None => True | Some (E1, b), Some (E1', b') => E1 = E1' /\ SpecElements.alike R b b' | _, _ => False end).
    { destruct bt as [t|].
      - destruct S2 as (E & WB & EB). destruct S2' as (E' & WB' & EB'). assert (E' = E) as -> by exact (written_fun U _ _ t E' E HU WB' WB).
        rewrite EB in Bc. destruct Bc as (b0 & -> & Wb & Sb). destruct c' as [b0'|]; [|destruct Ac]. exists E. cbn [option_map].
        split; [exists E, b0; rewrite EB, Sb; auto|]. split; [|split; [reflexivity|exact Ac]].
        exists E, b0'. rewrite EB', <- (alike_shape R b0 b0' Ac), Sb. pose proof (alike_wf R b0 b0' Ac Wb). auto.
      - rewrite S2 in Bc. cbn in Bc. subst c. destruct c'; [destruct Ac|]. exists []. cbn. auto. }
    destruct HBs as (E & K1 & K2 & K3).
    rewrite (alike_shape R x x' Ax) in Hf, Hrk. pose proof Hr as Hr'. pose proof WW as WW'. pose proof HM' as HM2. rewrite EU in Hr', WW', HM2, K2.
    destruct (call_mixes add' mul' zero' one' add_comm' add_assoc' mul_one' lib' HC' iadd' HI' r' Hok' os os' Hos Hos' p wt bt sizes L S W Hr' WW' PL PR PW Hns M' HM2 e len x' w' Wx' Ww' Hrk Hf Hd He' Sw' _ K2) as (y' & Ey' & My').
    rewrite <- (alike_shape R x x' Ax) in Hf, Hrk.
    destruct (call_mixes add mul zero one add_comm add_assoc mul_one lib HC iadd HI r Hok os os' Hos Hos' p wt bt sizes L S W Hr WW PL PR PW Hns M HM e len x w Wx Ww Hrk Hf Hd He Sw _ K1) as (y & Ey & My).
    exists y, y'. replace (option_map snd (option_map (pair E) c)) with c in Ey by (destruct c; reflexivity). replace (option_map snd (option_map (pair E) c')) with c' in Ey' by (destruct c'; reflexivity).
    split; [exact Ey|]. split; [exact Ey'|].
    eapply (mixes_alike R add mul zero add' mul' zero' Radd Rmul Rzero) with (b := option_map (pair E) c) (b' := option_map (pair E) c'); [|exact Ax|exact Aw|destruct c, c'; exact K3|exact My|exact My'].
    apply (layer_NoDup r Hok os os' Hos p wt bt sizes L S W Hr WW PL PR PW Hns M HM e).
  Qed.
End Layers.

(** ** Homomorphisms *)
Section Maps.
  Context {A B : Type} (h : A -> B) (add mul : A -> A -> A) (zero one : A) (add' mul' : B -> B -> B) (zero' one' : B).
  Context (Hadd : forall a b, h (add a b) = add' (h a) (h b)) (Hmul : forall a b, h (mul a b) = mul' (h a) (h b)) (Hzero : h zero = zero').
  Context (add_comm : forall a b, add a b = add b a) (add_assoc : forall a b c, add a (add b c) = add (add a b) c).
  Context (add_comm' : forall a b, add' a b = add' b a) (add_assoc' : forall a b c, add' a (add' b c) = add' (add' a b) c).
  Context (lib : pystr -> list (tensor A) -> result (tensor A)) (HC : einsum_contract add mul zero one lib).
  Context (lib' : pystr -> list (tensor B) -> result (tensor B)) (HC' : einsum_contract add' mul' zero' one' lib').

  Lemma graph_op (f : A -> A -> A) (f' : B -> B -> B) : (forall a b, h (f a b) = f' (h a) (h b)) ->
    forall a a' b b', graph h a a' -> graph h b b' -> graph h (f a b) (f' a' b').
  Proof. unfold graph. intros H a a' b b' -> ->. now rewrite H. Qed.

  Theorem einsum_map U p Ls S len xs : unicode_ok U -> h one = one' -> einsum_reads U p Ls S -> length (distinct (all_names Ls)) <= 52 ->
    good_call len (map to_term Ls) (to_term S) xs ->
    exists y, einsum_with U lib (map inl xs ++ [inr p]) = Ok y /\ einsum_with U lib' (map inl (map (t_map h) xs) ++ [inr p]) = Ok (t_map h y).
  Proof.
    intros HU Hone Hr H52 Hg.
    destruct (einsum_alike (graph h) add mul zero one add' mul' zero' one' (graph_op _ _ Hadd) (graph_op _ _ Hmul) (eq_sym Hzero) (eq_sym Hone) U HU
      add_comm add_assoc add_comm' add_assoc' lib HC lib' HC' p Ls S len xs (map (t_map h) xs) Hr H52 Hg) as (y & y' & E & E' & F).
    - now apply alike_graphs.
    - exists y. apply alike_graph in F. subst y'. auto.
  Qed.

  Context (mul_one : forall a, mul a one = a) (mul_one' : forall a, mul' a one' = a).
  Context (iadd : tensor A -> tensor A -> result (tensor A)) (HI : iadd_contract add iadd).
  Context (iadd' : tensor B -> tensor B -> result (tensor B)) (HI' : iadd_contract add' iadd').
  Theorem einmix_map (r : runtime A) (r' : runtime B) os os' p wt bt sizes L S W (M : einmix (tensor A)) (M' : einmix (tensor B)) e len x w c :
    runtime_ok r -> runtime_ok r' -> rt_unicode r = rt_unicode r' -> (forall n, orders_ok (os n)) -> (forall n, orders_ok (os' n)) ->
    reads (rt_unicode r) p L S -> written (rt_unicode r) wt W -> plain L -> plain S -> plain W -> NoDup (map fst sizes) ->
    EinMix (rt_unicode r) os os' p wt bt sizes = Ok M -> EinMix (rt_unicode r) os os' p wt bt sizes = Ok M' ->
    wf x -> rank_fits L (length (shp x)) e -> fits len (left_groups e L) (right_groups e L S) (shp x) sizes ->
    (forall g, In g (left_groups e L) -> filter (unknown (map fst sizes)) g <> [] -> prodn (map len (filter (fun a => negb (unknown (map fst sizes) a)) g)) <> 0) ->
    (em_pre M <> None \/ em_post M <> None -> e < 8) -> (em_pre M' <> None \/ em_post M' <> None -> e < 8) ->
    wf w -> map Z.of_nat (shp w) = em_weight M -> bias_of (em_bias M) c ->
    exists y, call_einmix r lib iadd M w c x = Ok y /\
      call_einmix r' lib' iadd' M' (t_map h w) (option_map (t_map h) c) (t_map h x) = Ok (t_map h y).
  Proof.
    intros Hok Hok' EU Hos Hos' Hr WW PL PR PW Hns HM HM' Wx Hrk Hf Hd He He' Ww Sw Bc.
    destruct (einmix_alike (graph h) add mul zero one add' mul' zero' one' (graph_op _ _ Hadd) (graph_op _ _ Hmul) (eq_sym Hzero)
      add_comm add_assoc mul_one add_comm' add_assoc' mul_one' lib HC lib' HC' iadd HI iadd' HI' r Hok r' Hok' EU os os' Hos Hos' p wt bt sizes L S W Hr WW PL PR PW Hns
      M HM M' HM' e len x (t_map h x) w (t_map h w) c (option_map (t_map h) c) Wx Hrk Hf Hd He He' Ww Sw Bc) as (y & y' & E & E' & F).
    - now apply alike_graph.
    - now apply alike_graph.
    - destruct c; cbn; [now apply alike_graph|exact I].
    - exists y. apply alike_graph in F. subst y'. auto.
  Qed.
End Maps.
