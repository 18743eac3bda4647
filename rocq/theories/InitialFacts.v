(** * The first values of the parameters of EinMix *)
From Coq Require Import QArith Qround Lqa Permutation.
From Verif Require Import Py Tensor ListFacts TensorFacts SpecSem SpecGrammar SpecEinsum SpecPattern SpecForms SpecOps SpecElements SpecLinear SpecEinMix SpecInitial
  Parsing Recipe Ops Backends Einsum Api Layers EinMix Flax Initial ParseFacts ParseFacts2 ParseFacts3 StepFacts ReduceFacts FrontFacts FrontFacts2 FrontFacts3 MainFacts InferFacts EinsumFacts4 MixFacts MixFacts2 MixFacts4 MixFacts5 MixFacts6 MixFacts7 MixFacts8 MixFacts9 MixLaws MixLaws2.
Open Scope Q_scope.

(** ** Bounds *)
Lemma fan_square (k fan : Z) q : (0 < fan)%Z -> q * q <= inject_Z k / inject_Z fan -> q * q * inject_Z fan <= inject_Z k.
Proof.
  intros Hf H. assert (P : 0 < inject_Z fan) by (change 0 with (inject_Z 0); rewrite <- Zlt_Qlt; exact Hf).
  apply (Qmult_le_r _ _ (inject_Z fan) P) in H. rewrite Qmult_comm in H at 1.
  setoid_replace (inject_Z k / inject_Z fan * inject_Z fan) with (inject_Z k) in H by (field; lra). lra.
Qed.
Lemma within_bound lib (k fan : Z) shape q : (0 < fan)%Z -> (0 <= k)%Z ->
  at_least q (q_low (parameter lib shape (mkBound 1 (inject_Z k / inject_Z fan)))) -> at_most q (q_high (parameter lib shape (mkBound 1 (inject_Z k / inject_Z fan)))) ->
  q * q * inject_Z fan <= inject_Z k.
Proof.
  intros Hf Hk L H. assert (P : 0 < inject_Z fan) by (change 0 with (inject_Z 0); rewrite <- Zlt_Qlt; exact Hf).
  assert (K : 0 <= inject_Z k) by (change 0 with (inject_Z 0); rewrite <- Zle_Qle; exact Hk).
  assert (H' : q <= 0 \/ q * q <= inject_Z k / inject_Z fan) by (destruct lib; exact H). clear H.
  assert (L' : - q <= 0 \/ (- q) * (- q) <= inject_Z k / inject_Z fan) by (destruct lib; cbn in L; auto). clear L.
  destruct H' as [H|H]; [|apply fan_square; auto]. destruct L' as [L|L]; [|apply fan_square; auto; nra].
  assert (E : q == 0) by lra. rewrite E. lra.
Qed.

Lemma parameter_range lib (k fan : Z) shape t : (0 < fan)%Z -> (0 <= k)%Z -> answers (parameter lib shape (mkBound 1 (inject_Z k / inject_Z fan))) t ->
  Forall (fun q => q * q * inject_Z fan <= inject_Z k) (dat t).
Proof. intros Hf Hk (_ & _ & H). eapply Forall_impl; [|exact H]. intros q [H1 H2]. eapply within_bound; eauto. Qed.
Lemma parameter_shape lib shape b t : answers (parameter lib shape b) t -> wf t /\ map Z.of_nat (shp t) = shape.
Proof. intros (H1 & H2 & _). split; [exact H1|]. now destruct lib. Qed.
Lemma opp_opp q : - - q == q. Proof. lra. Qed.
Lemma at_most_eq q q' b : q == q' -> at_most q b -> at_most q' b.
Proof. intros E. unfold at_most. destruct (b_sign b); rewrite E; auto. Qed.
Lemma parameter_symmetric lib shape b t : lib <> InFlax -> answers (parameter lib shape b) t -> answers (parameter lib shape b) (t_map Qopp t).
Proof.
  intros Hl (H1 & H2 & H3). assert (E : parameter lib shape b = mkRequest shape (opposite b) b) by (destruct lib; try reflexivity; congruence). rewrite E in *. split; [|split; [exact H2|]].
  - unfold wf in *. cbn. now rewrite map_length.
  - cbn in *. apply Forall_map. eapply Forall_impl; [|exact H3]. intros q [L H]. unfold at_least in *.
    replace (opposite (opposite b)) with b in * by (destruct b as [s u]; unfold opposite; cbn; now rewrite Z.opp_involutive).
    split; [eapply at_most_eq; [symmetry; apply opp_opp|exact H]|exact L].
Qed.
Lemma flax_positive shape b t : answers (parameter InFlax shape b) t -> Forall (fun q => 0 <= q) (dat t).
Proof. intros (_ & _ & H). eapply Forall_impl; [|exact H]. intros q [L _]. cbn in L. unfold at_least, at_most in L. cbn in L. lra. Qed.

(** ** Sums *)
Notation qsum := (fold_right Qplus 0).
Lemma sqr_nonneg a : 0 <= a * a.
Proof.
  destruct (Qlt_le_dec a 0) as [H|H]; [|now apply Qmult_le_0_compat].
  setoid_replace (a * a) with ((- a) * (- a)) by ring. apply Qmult_le_0_compat; lra.
Qed.
Lemma scale_le c a b : 0 <= c -> a <= b -> c * a <= c * b.
Proof. intros Hc H. setoid_replace (c * b) with (c * a + c * (b - a)) by ring. assert (0 <= c * (b - a)) by (apply Qmult_le_0_compat; lra). lra. Qed.
Lemma squares_nonneg l : 0 <= sum_of_squares l.
Proof. induction l as [|a l IH]; [apply Qle_refl|]. change (0 <= a * a + sum_of_squares l). pose proof (sqr_nonneg a). lra. Qed.
Lemma sum_square l : qsum l * qsum l <= inject_Z (Z.of_nat (length l)) * sum_of_squares l.
Proof.
  induction l as [|a l IH]; [apply Qle_refl|]. change ((a + qsum l) * (a + qsum l) <= inject_Z (Z.of_nat (S (length l))) * (a * a + sum_of_squares l)). rewrite Nat2Z.inj_succ, <- Z.add_1_r, inject_Z_plus.
  pose proof (squares_nonneg l) as T0. assert (Hn : length l = 0%nat \/ 1 <= inject_Z (Z.of_nat (length l))) by (destruct l; [left; reflexivity|right; change 1 with (inject_Z 1); rewrite <- Zle_Qle; cbn; lia]).
  set (S := qsum l) in *. set (T := sum_of_squares l) in *. set (n := inject_Z (Z.of_nat (length l))) in *.
  destruct Hn as [Hn|Hn].
  - destruct l; [|discriminate]. unfold S, T, n. cbn [length fold_right Z.of_nat sum_of_squares]. change (inject_Z 0) with 0. change (inject_Z 1) with 1. pose proof (sqr_nonneg a). lra.
  - assert (H : 0 <= T + n * (a * a) - 2 * S * a).
    { assert (H : 0 <= n * (T + n * (a * a) - 2 * S * a)) by (pose proof (sqr_nonneg (S - n * a)); nra).
      destruct (Qlt_le_dec (T + n * (a * a) - 2 * S * a) 0) as [X|X]; [|exact X]. exfalso. nra. }
    change (inject_Z 1) with 1. nra.
Qed.
Lemma products_square (k f : Q) xs : 0 < f -> 0 <= k -> forall ws, Forall (fun q => q * q * f <= k) ws ->
  sum_of_squares (map2 Qmult xs ws) * f <= k * sum_of_squares xs.
Proof.
  intros Hf Hk. induction xs as [|x xs IH]; intros ws H; [change (0 * f <= k * 0); lra|]. destruct ws as [|w ws]; [pose proof (squares_nonneg (x :: xs)); change (map2 Qmult (x :: xs) []) with (@nil Q); change (sum_of_squares []) with 0; nra|].
  inversion H as [|? ? Hw Hws]; subst. specialize (IH ws Hws). change ((x * w * (x * w) + sum_of_squares (map2 Qmult xs ws)) * f <= k * (x * x + sum_of_squares xs)).
  pose proof (scale_le (x * x) _ _ (sqr_nonneg x) Hw) as Y. nra.
Qed.
Lemma total_square (k f : Q) xs ws : 0 < f -> 0 <= k -> length xs = length ws -> Forall (fun q => q * q * f <= k) ws ->
  qsum (map2 Qmult xs ws) * qsum (map2 Qmult xs ws) * f <= k * inject_Z (Z.of_nat (length xs)) * sum_of_squares xs.
Proof.
  intros Hf Hk Hl H. pose proof (sum_square (map2 Qmult xs ws)) as H1. pose proof (products_square k f xs Hf Hk ws H) as H2.
  assert (E : length (map2 Qmult xs ws) = length xs). { clear -Hl. revert ws Hl. induction xs as [|x xs IH]; intros [|w ws] Hl; try discriminate; [reflexivity|]. cbn. f_equal. apply IH. now injection Hl. }
  rewrite E in H1. set (n := inject_Z (Z.of_nat (length xs))) in *. set (S := qsum (map2 Qmult xs ws)) in *. set (T := sum_of_squares (map2 Qmult xs ws)) in *. set (X := sum_of_squares xs) in *.
  assert (N : 0 <= n) by (unfold n; change 0 with (inject_Z 0); rewrite <- Zle_Qle; lia).
  pose proof (scale_le f _ _ (Qlt_le_weak _ _ Hf) H1) as A1. pose proof (scale_le n _ _ N H2) as A2. nra.
Qed.

(** ** The number of products *)
Section Fan.
  Context {A : Type} (r : runtime A) (Hok : runtime_ok r) (os os' : nat -> orders) (Hos : forall n, orders_ok (os n)).
  Notation U := (rt_unicode r).
  Context (p wt : pystr) (bt : option pystr) (sizes : list (pystr * Z)) (L R W : expr).
  Context (Hr : reads U p L R) (WW : written U wt W) (PL : plain L) (PR : plain R) (PW : plain W) (Hns : NoDup (map fst sizes)).
  Context (M : einmix (tensor A)) (HM : EinMix U os os' p wt bt sizes = Ok M).
  Open Scope nat_scope.

  Lemma fan_positive w : map Z.of_nat w = em_weight M -> (0 < em_fan_in M)%Z.
  Proof.
    intros Hw. pose proof (ro_unicode _ Hok) as HU. pose proof (layer_ok r Hok os os' Hos p wt bt sizes L R W Hr WW PL PR PW Hns M HM) as OK.
    destruct (mix_shapes U HU os os' Hos p wt bt sizes Hns L R W Hr WW PL PR PW M HM (size_of sizes) (fun s z H => size_unique sizes s z Hns H)) as (S1 & -> & _).
    rewrite S1 in Hw. unfold weight_dims in Hw.
    assert (H0 : forall s, In s (keys W) -> (0 <= size_of sizes s)%Z).
    { intros s Hs. apply (in_map (size_of sizes)) in Hs. rewrite <- Hw in Hs. apply in_map_iff in Hs as (d & E & _). lia. }
    assert (H1 : forall s, In s (filter (fun s => negb (str_mem s (keys R))) (keys W)) -> (0 < size_of sizes s)%Z).
    { intros s Hs. apply filter_In in Hs as [Hs Hn]. specialize (H0 s Hs). assert (size_of sizes s <> 0%Z); [|lia]. intros E.
      pose proof (size_in sizes s (mo_sized _ _ _ _ _ _ OK s Hs)) as Hi. rewrite E in Hi. apply (mo_summed _ _ _ _ _ _ OK s Hs); [|exact Hi].
      intros X. apply str_mem_In in X. now rewrite X in Hn. }
    revert H1. generalize (filter (fun s => negb (str_mem s (keys R))) (keys W)). induction l as [|s l IH]; intros H1; cbn [map fold_right]; [lia|].
    apply Z.mul_pos_pos; [apply H1; now left|apply IH; intros; apply H1; now right].
  Qed.

  Context (e : nat) (len : label -> nat) (shape : list nat).
  Notation gl := (left_groups e L).
  Notation gr := (right_groups e L R).
  Context (Hfits : fits len gl gr shape sizes).
  Lemma products_count : Z.of_nat (prodn (map len (missing gl gr))) = (em_fan_in M * Z.of_nat (prodn (map len (unweighted W (missing gl gr)))))%Z.
  Proof.
    pose proof (ro_unicode _ Hok) as HU. pose proof (layer_ok r Hok os os' Hos p wt bt sizes L R W Hr WW PL PR PW Hns M HM) as OK.
    set (lz := fun s => Z.of_nat (len (LName s))).
    assert (Hz : forall s z, In (s, z) sizes -> lz s = z) by (intros s z H; apply (proj2 (proj2 Hfits)), H).
    destruct (mix_shapes U HU os os' Hos p wt bt sizes Hns L R W Hr WW PL PR PW M HM lz Hz) as (_ & -> & _).
    pose proof (proj1 (reads_split U HU p L R) Hr) as (l & rr & Hs & WL & WR).
    pose proof (einmix_made U HU os os' Hos p wt l rr bt sizes L R W Hs WL WR WW PL PR PW Hns M HM) as HMd.
    pose proof (concat_gl _ _ _ _ _ _ _ _ _ _ _ _ PL M HMd e) as CL. pose proof (concat_gr _ _ _ _ _ _ _ _ _ _ _ _ PR M HMd e) as CR.
    destruct (layer_NoDup r Hok os os' Hos p wt bt sizes L R W Hr WW PL PR PW Hns M HM e) as [NL NR].
    set (P := fun a => existsb (label_eqb a) (map LName (keys W))).
    set (F := filter (fun s => negb (str_mem s (keys R))) (keys W)).
    assert (Hperm : Permutation (filter P (missing gl gr)) (map LName F)).
    { apply NoDup_Permutation.
      - unfold missing. apply NoDup_filter, NoDup_filter, NL.
      - apply FinFun.Injective_map_NoDup; [intros a b E; now injection E|]. apply NoDup_filter. exact (written_NoDup _ _ _ WW).
      - intros a. rewrite filter_In, in_map_iff. unfold P. rewrite existsb_exists. unfold missing. rewrite filter_In, CL, CR. split.
        + intros ((Ha & Hn) & b & Hb & E). apply label_eqb_eq in E. subst b. apply in_map_iff in Hb as (s & <- & Hw). exists s. split; [reflexivity|].
          apply filter_In. split; [exact Hw|]. destruct (str_mem s (keys R)) eqn:X; [|reflexivity]. apply str_mem_In in X. exfalso.
          apply negb_true_iff in Hn. assert (Y : existsb (label_eqb (LName s)) (alabs e (atoms R)) = true); [|congruence].
          apply existsb_exists. exists (LName s). split; [|apply label_eqb_eq; reflexivity]. apply (in_name e R s PR). split; [exact X|]. apply (in_name e L s PL) in Ha. tauto.
        + intros (s & <- & Hf). apply filter_In in Hf as [Hw Hn]. assert (Hnr : ~ In s (keys R)) by (intros X; apply str_mem_In in X; now rewrite X in Hn).
          assert (Hl : In s (keys L)) by (pose proof (mo_needed _ _ _ _ _ _ OK s Hw) as X; apply in_app_or in X; tauto).
          assert (Hell : s <> ell_name).
          { exact (no_ell_W W PW (mo_weight _ _ _ _ _ _ OK) s Hw). }
          split; [split|].
          * apply (in_name e L s PL). auto.
          * apply negb_true_iff. destruct (existsb _ _) eqn:X; [|reflexivity]. apply existsb_exists in X as (b & Hb & E). apply label_eqb_eq in E. subst b.
            apply (in_name e R s PR) in Hb. tauto.
          * exists (LName s). split; [apply in_map; exact Hw|apply label_eqb_eq; reflexivity]. }
    assert (Hall : prodn (map len (missing gl gr)) = prodn (map len (filter P (missing gl gr))) * prodn (map len (unweighted W (missing gl gr)))).
    { rewrite <- prodn_app, <- map_app. apply prodn_perm, Permutation_map. exact (filter_split_perm P (missing gl gr)). }
    rewrite Hall, Nat2Z.inj_mul. f_equal. rewrite (prodn_perm _ _ (Permutation_map len Hperm)), map_map. unfold lz.
    generalize F. induction F0 as [|s F0 IH]; [reflexivity|]. cbn [map prodn fold_right]. fold (prodn (map (fun x => len (LName x)) F0)). rewrite Nat2Z.inj_mul, IH. reflexivity.
  Qed.
End Fan.

(** ** The first outputs *)
Lemma Qplus_swap a b : Qplus a b = Qplus b a.
Proof. destruct a, b. unfold Qplus; cbn. f_equal; [ring|apply Pos.mul_comm]. Qed.
Lemma Qplus_group a b c : Qplus a (Qplus b c) = Qplus (Qplus a b) c.
Proof. destruct a, b, c. unfold Qplus; cbn. rewrite !Pos2Z.inj_mul. f_equal; [ring|apply Pos.mul_assoc]. Qed.
Lemma Qmult_unit a : Qmult a 1 = a.
Proof. destruct a. unfold Qmult; cbn. now rewrite Z.mul_1_r, Pos.mul_1_r. Qed.
Lemma get_In {A} (t : tensor A) idx a : get t idx = Some a -> In a (dat t).
Proof. unfold get. destruct (inb _ _); [|discriminate]. apply nth_error_In. Qed.
Lemma all_in {X A} (f : X -> list nat) (t : tensor A) l xs : map (fun v => get t (f v)) l = map Some xs -> forall a, In a xs -> In a (dat t).
Proof. revert xs. induction l as [|v l IH]; intros [|x xs] E a Ha; try discriminate; [destruct Ha|]. injection E as E1 E2. destruct Ha as [<-|Ha]; [eapply get_In; eauto|eauto]. Qed.

Section Outputs.
  Context (lib : pystr -> list (tensor Q) -> result (tensor Q)) (HC : einsum_contract Qplus Qmult 0 1 lib).
  Context (iadd : tensor Q -> tensor Q -> result (tensor Q)) (HI : iadd_contract Qplus iadd).
  Context (r : runtime Q) (Hok : runtime_ok r) (os os' : nat -> orders) (Hos : forall n, orders_ok (os n)) (Hos' : forall n, orders_ok (os' n)).
  Notation U := (rt_unicode r).
  Context (p wt : pystr) (bt : option pystr) (sizes : list (pystr * Z)) (L R W : expr).
  Context (Hr : reads U p L R) (WW : written U wt W) (PL : plain L) (PR : plain R) (PW : plain W) (Hns : NoDup (map fst sizes)).
  Context (M : einmix (tensor Q)) (HM : EinMix U os os' p wt bt sizes = Ok M).
  Context (e : nat) (len : label -> nat) (x : tensor Q).
  Notation gl := (left_groups e L).
  Notation gr := (right_groups e L R).
  Context (Wx : wf x) (Hrank : rank_fits L (length (shp x)) e) (Hfits : fits len gl gr (shp x) sizes).
  Context (Hdiv : forall g, In g gl -> filter (unknown (map fst sizes)) g <> [] -> prodn (map len (filter (fun a => negb (unknown (map fst sizes) a)) g)) <> 0%nat).
  Context (He : em_pre M <> None \/ em_post M <> None -> (e < 8)%nat).

  Lemma bias_answer l b : answers_option (snd (mix_requests l M)) b -> bias_of (em_bias M) b.
  Proof.
    unfold mix_requests, create_parameters. cbn [snd]. destruct (em_bias M) as [s|], b as [b0|]; cbn; try tauto. intros H. apply parameter_shape in H. exists b0. tauto.
  Qed.
  Theorem first_output l w b : answers (fst (mix_requests l M)) w -> answers_option (snd (mix_requests l M)) b ->
    exists y, call_einmix r lib iadd M w b x = Ok y /\ wf y /\ shp y = gshape len gr /\
      forall ix, within len ix (concat gr) -> exists xs t c v, elements x len gl (missing gl gr) ix = map Some xs /\ get y (gindex len ix gr) = Some v /\ v == t + c /\
        t * t <= 3 * inject_Z (Z.of_nat (prodn (map len (unweighted W (missing gl gr))))) * sum_of_squares xs /\ c * c * inject_Z (em_fan_in M) <= 1 /\ (em_bias M = None -> c == 0).
  Proof.
    intros Aw Ab. destruct (parameter_shape l _ _ _ Aw) as [Ww Sw].
    pose proof (fan_positive r Hok os os' Hos p wt bt sizes L R W Hr WW PL PR PW Hns M HM _ Sw) as Hfan.
    pose proof (products_count r Hok os os' Hos p wt bt sizes L R W Hr WW PL PR PW Hns M HM e len _ Hfits) as Hcnt.
    pose proof (bias_answer l b Ab) as Bb.
    destruct (layer_calls Qplus Qmult 0 1 Qplus_swap Qplus_group Qmult_unit lib HC iadd HI r Hok os os' Hos Hos' p wt bt sizes L R W Hr WW PL PR PW Hns M HM e len (shp x) Hrank Hfits Hdiv He) as (B & Hcall).
    destruct (Hcall x w b Wx eq_refl Ww Sw Bb) as (y & Ey & Wy & Sy & G). exists y. split; [exact Ey|]. split; [exact Wy|]. split; [exact Sy|].
    intros ix Hix. destruct (G ix Hix) as (xs & ws & E1 & E2 & E3). cbv zeta in E3.
    assert (Lx : length xs = prodn (map len (missing gl gr))) by (rewrite <- (map_length Some xs), <- E1; unfold elements; now rewrite map_length, indices_length).
    assert (Lw : length xs = length ws) by (rewrite Lx, <- (map_length Some ws), <- E2; unfold weight_elements; now rewrite map_length, indices_length).
    assert (Rw : Forall (fun q => q * q * inject_Z (em_fan_in M) <= 3) ws).
    { apply Forall_forall. intros a Ha. pose proof (all_in _ w _ _ E2 a Ha) as Hin. pose proof (parameter_range l 3 _ _ w Hfan ltac:(lia) Aw) as F.
      rewrite Forall_forall in F. exact (F a Hin). }
    assert (Pf : 0 < inject_Z (em_fan_in M)) by (change 0 with (inject_Z 0); rewrite <- Zlt_Qlt; exact Hfan).
    pose proof (total_square 3 _ xs ws Pf ltac:(lra) Lw Rw) as HT. set (t := qsum (map2 Qmult xs ws)) in *.
    assert (HT' : t * t <= 3 * inject_Z (Z.of_nat (prodn (map len (unweighted W (missing gl gr))))) * sum_of_squares xs).
    { apply (Qmult_le_r _ _ _ Pf). rewrite Lx, Hcnt, inject_Z_mult in HT. nra. }
    destruct b as [b0|]; cbn [option_map] in E3.
    - destruct E3 as (c & Ec & Ev). exists xs, t, c, (t + c). split; [exact E1|]. split; [exact Ev|]. split; [reflexivity|]. split; [exact HT'|].
      unfold mix_requests, create_parameters in Ab. cbn [snd] in Ab. destruct (em_bias M) as [s|]; [|destruct Ab]. cbn in Ab. split; [|discriminate].
      pose proof (parameter_range l 1 _ _ b0 Hfan ltac:(lia) Ab) as F. rewrite Forall_forall in F. apply F. eapply get_In; eauto.
    - exists xs, t, 0, t. split; [exact E1|]. split; [exact E3|]. split; [lra|]. split; [exact HT'|]. split; [lra|]. intros; reflexivity.
  Qed.
End Outputs.

(** ** Objects *)
Section Objects.
  Context (draw : nat -> request -> result (tensor Q)) (Hd : draws draw) (r : runtime Q)
    (lib_einsum : pystr -> list (tensor Q) -> result (tensor Q)) (iadd : tensor Q -> tensor Q -> result (tensor Q)).
  Definition lengths_of (M : einmix (tensor Q)) : list Z := em_weight M ++ match em_bias M with Some s => s | None => [] end.
  Definition draws_of (M : einmix (tensor Q)) : nat := match em_bias M with Some _ => 2 | None => 1 end.
  Lemma parameter_zero l s k : at_least 0 (q_low (parameter l s (mkBound 1 k))) /\ at_most 0 (q_high (parameter l s (mkBound 1 k))).
  Proof. destruct l; cbn; unfold at_least, at_most; cbn; split; try left; apply Qle_refl. Qed.
  Lemma parameter_lengths l s b : q_shape (parameter l s b) = s. Proof. now destruct l. Qed.

  Lemma make_good l (M : einmix (tensor Q)) n : Forall (fun z => (0 <= z)%Z) (lengths_of M) ->
    exists w b, make_parameters draw n (mix_requests l M) = (Ok (w, b), (n + draws_of M)%nat) /\ answers (fst (mix_requests l M)) w /\ answers_option (snd (mix_requests l M)) b.
  Proof.
    intros H. unfold lengths_of in H. apply Forall_app in H as [H1 H2]. unfold make_parameters, draws_of, mix_requests, create_parameters. cbn [fst snd].
    assert (Hok : forall k s c, Forall (fun z => (0 <= z)%Z) s -> exists t, draw k (parameter l s (mkBound 1 c)) = Ok t /\ answers (parameter l s (mkBound 1 c)) t).
    { intros k s c Hs. set (b := mkBound 1 c). pose proof (Hd k (parameter l s b) (proj1 (parameter_zero l s c)) (proj2 (parameter_zero l s c))) as X. destruct (draw k (parameter l s b)) as [t|ex]; [eauto|].
      destruct X as (z & Hz & Hneg). rewrite parameter_lengths in Hz. rewrite Forall_forall in Hs. specialize (Hs z Hz). lia. }
    destruct (Hok n (em_weight M) (inject_Z 3 / inject_Z (em_fan_in M)) H1) as (w & Ew & Aw). change (mkBound 1 (inject_Z 3 / inject_Z (em_fan_in M))) with (weight_bound (em_fan_in M)) in *. rewrite Ew. destruct (em_bias M) as [s|].
    - destruct (Hok (S n) s (inject_Z 1 / inject_Z (em_fan_in M)) H2) as (b & Eb & Ab). change (mkBound 1 (inject_Z 1 / inject_Z (em_fan_in M))) with (bias_bound (em_fan_in M)) in *. rewrite Eb. exists w, (Some b). split; [f_equal; lia|]. auto.
    - exists w, None. split; [f_equal; lia|]. cbn. auto.
  Qed.
  Lemma make_bad l (M : einmix (tensor Q)) n : Exists (fun z => (z < 0)%Z) (lengths_of M) -> exists ex n', make_parameters draw n (mix_requests l M) = (Err ex, n').
  Proof.
    intros H. unfold make_parameters, mix_requests, create_parameters. cbn [fst snd].
    assert (Hbad : forall k s c t, draw k (parameter l s (mkBound 1 c)) = Ok t -> Forall (fun z => (0 <= z)%Z) s).
    { intros k s c t E. pose proof (Hd k (parameter l s (mkBound 1 c)) (proj1 (parameter_zero l s c)) (proj2 (parameter_zero l s c))) as X. rewrite E in X. apply parameter_shape in X as [_ <-]. apply Forall_forall. intros z Hz. apply in_map_iff in Hz as (d & <- & _). lia. }
    destruct (draw n _) as [w|ex] eqn:Ew; [|eauto]. apply Hbad in Ew. unfold lengths_of in H. apply Exists_app in H as [H|H].
    - exfalso. rewrite Forall_forall in Ew. apply Exists_exists in H as (z & Hz & Hneg). specialize (Ew z Hz). lia.
    - destruct (em_bias M) as [s|]; [|inversion H]. destruct (draw (S n) _) as [b|ex] eqn:Eb; [|eauto]. apply Hbad in Eb. exfalso. rewrite Forall_forall in Eb.
      apply Exists_exists in H as (z & Hz & Hneg). specialize (Eb z Hz). lia.
  Qed.

  Notation calls := (call_objects draw r lib_einsum iadd).
  Lemma calls_made l xs : forall o w b, mx_params o = Some (w, b) -> calls l o xs = (map (call_einmix r lib_einsum iadd (mx_layer o) w b) xs, o).
  Proof. induction xs as [|x xs IH]; intros o w b H; [reflexivity|]. cbn. unfold call_object. rewrite H. now rewrite (IH o w b H). Qed.
  Theorem objects_once l (M : einmix (tensor Q)) n : Forall (fun z => (0 <= z)%Z) (lengths_of M) ->
    exists o w b, new_object draw l M n = Ok o /\ answers (fst (mix_requests l M)) w /\ answers_option (snd (mix_requests l M)) b /\
      forall xs, xs <> [] -> calls l o xs = (map (call_einmix r lib_einsum iadd M w b) xs, mkObject M (Some (w, b)) (n + draws_of M)).
  Proof.
    intros H. destruct (make_good l M n H) as (w & b & E & Aw & Ab). unfold new_object.
    assert (Hl : l = InTensorflow \/ l <> InTensorflow) by (destruct l; auto; right; discriminate). destruct Hl as [->|Hl]; cycle 1.
    { exists (mkObject M (Some (w, b)) (n + draws_of M)), w, b. split; [destruct l; try contradiction; rewrite E; reflexivity|]. split; [exact Aw|]. split; [exact Ab|].
      intros xs _. rewrite (calls_made l xs (mkObject M (Some (w, b)) (n + draws_of M)) w b eq_refl). reflexivity. }
    eexists; exists w, b; split; [reflexivity|]; split; [exact Aw|]; split; [exact Ab|]. intros [|x xs] Hx; [contradiction|]. cbn [call_objects]. unfold call_object. cbn [mx_params mx_drawn mx_layer]. rewrite E.
    rewrite (calls_made InTensorflow xs (mkObject M (Some (w, b)) (n + draws_of M)) w b eq_refl). reflexivity.
  Qed.
  Theorem objects_negative l (M : einmix (tensor Q)) n : Exists (fun z => (z < 0)%Z) (lengths_of M) ->
    if match l with InTensorflow => true | _ => false end
    then exists o, new_object draw l M n = Ok o /\ forall xs, Forall (fun y => exists ex, y = Err ex) (fst (calls l o xs))
    else exists ex, new_object draw l M n = Err ex.
  Proof.
    intros H. unfold new_object.
    destruct (make_bad l M n H) as (ex0 & n0 & E0). destruct l; try (rewrite E0; cbn; eauto; fail). clear E0.
    eexists. split; [reflexivity|]. intros xs. revert n. induction xs as [|x xs IH]; intros n; [constructor|]. cbn [call_objects]. unfold call_object. cbn [mx_params mx_drawn mx_layer].
    destruct (make_bad InTensorflow M n H) as (ex & n' & ->). specialize (IH n'). destruct (calls InTensorflow _ xs) as [ys o]. cbn in *. constructor; eauto.
  Qed.
End Objects.

(** ** In the form of the statements *)
Lemma first_ranges (r : runtime Q) (Hok : runtime_ok r) os os' (Hos : forall n, orders_ok (os n)) p wt bt sizes L R W :
  reads (rt_unicode r) p L R -> written (rt_unicode r) wt W -> plain L -> plain R -> plain W -> NoDup (map fst sizes) ->
  forall M : einmix (tensor Q), EinMix (rt_unicode r) os os' p wt bt sizes = Ok M ->
  forall l w b, answers (fst (mix_requests l M)) w -> answers_option (snd (mix_requests l M)) b ->
  (0 < em_fan_in M)%Z /\ wf w /\ map Z.of_nat (shp w) = em_weight M /\ bias_of (em_bias M) b /\
  Forall (fun q => q * q * inject_Z (em_fan_in M) <= 3) (dat w) /\
  match b with Some t => Forall (fun q => q * q * inject_Z (em_fan_in M) <= 1) (dat t) | None => True end.
Proof.
  intros Hr WW PL PR PW Hns M HM l w b Aw Ab. destruct (parameter_shape l _ _ _ Aw) as [Ww Sw].
  pose proof (fan_positive r Hok os os' Hos p wt bt sizes L R W Hr WW PL PR PW Hns M HM _ Sw) as Hfan.
  split; [exact Hfan|]. split; [exact Ww|]. split; [exact Sw|]. split; [eapply bias_answer; eauto|].
  split; [exact (parameter_range l 3 _ _ w Hfan ltac:(lia) Aw)|]. destruct b as [t|]; [|exact I].
  unfold mix_requests, create_parameters in Ab. cbn [snd] in Ab. destruct (em_bias M); [|destruct Ab]. exact (parameter_range l 1 _ _ t Hfan ltac:(lia) Ab).
Qed.
Lemma first_symmetric {T} (M : einmix T) l w b q : l <> InFlax ->
  (answers (fst (mix_requests l M)) w -> answers (fst (mix_requests l M)) (t_map Qopp w)) /\
  (snd (mix_requests l M) = Some q -> answers q b -> answers q (t_map Qopp b)).
Proof.
  intros H. split; [apply parameter_symmetric; exact H|]. unfold mix_requests, create_parameters. cbn [snd]. destruct (em_bias M); [|discriminate]. intros E. injection E as <-. apply parameter_symmetric; exact H.
Qed.
Lemma flax_sign (F : flax_mix) w b q :
  (answers (fst (flax_requests F)) w -> Forall (fun a => 0 <= a) (dat w)) /\
  (snd (flax_requests F) = Some q -> answers q b -> Forall (fun a => 0 <= a) (dat b)).
Proof.
  split; [apply flax_positive|]. unfold flax_requests, create_parameters. cbn [snd]. destruct (fm_bias F); [|discriminate]. intros E. injection E as <-. apply flax_positive.
Qed.
