(** * EinMix on a batch in pieces *)
From Verif Require Import Py Tensor TensorFacts ListFacts SpecSem SpecGrammar SpecEinsum SpecPattern SpecForms SpecOps SpecElements SpecBatch SpecBatches SpecLinear Parsing Compile Recipe Ops Backends Api
  ParseFacts ParseFacts2 ParseFacts3 StepFacts FrontFacts MainFacts UnitLaws BatchFacts PackBatch EinsumFacts3 Layers Einsum LayerFacts EinMix SpecEinMix MixFacts MixFacts5 MixFacts7 MixFacts8 MixFacts9 MixLaws MixLaws2 MixBatch ChunkFacts.

Section Layer.
  Context {A : Type} (add mul : A -> A -> A) (zero one : A).
  Context (add_comm : forall a b, add a b = add b a) (add_assoc : forall a b c, add a (add b c) = add (add a b) c) (mul_one : forall a, mul a one = a).
  Context (lib : pystr -> list (tensor A) -> result (tensor A)) (HC : einsum_contract add mul zero one lib).
  Context (iadd : tensor A -> tensor A -> result (tensor A)) (HI : iadd_contract add iadd).
  Context (r : runtime A) (Hok : runtime_ok r) (os os' : nat -> orders) (Hos : forall n, orders_ok (os n)) (Hos' : forall n, orders_ok (os' n)).
  Notation U := (rt_unicode r).
  Context (b p p' wt : pystr) (bt : option pystr) (sizes : list (pystr * Z)) (L1 L2 R1 R2 W : expr).
  Notation it := (Atom (AName b)).
  Notation L := (L1 ++ L2).
  Notation R := (R1 ++ R2).
  Notation L' := (L1 ++ it :: L2).
  Notation R' := (R1 ++ it :: R2).
  Context (Hb : b <> ell_name) (Hp : reads U p L R) (Hp' : reads U p' L' R') (Hsz : ~ In b (map fst sizes)).
  Context (WW : written U wt W) (PL : plain L) (PR : plain R) (PL' : plain L') (PR' : plain R') (PW : plain W) (Hns : NoDup (map fst sizes)).
  Context (M M' : einmix (tensor A)) (HM : EinMix U os os' p wt bt sizes = Ok M) (HM' : EinMix U os os' p' wt bt sizes = Ok M').
  Context (e : nat).
  Notation k := (length (left_groups e L1)).
  Notation k' := (length (right_groups e L R1)).
  Notation g1 := (groups (has_dots L) e 0 L1).
  Notation g2 := (groups (has_dots L) e (nbig (atoms L1)) L2).
  Notation h1 := (groups (has_dots L) e (nbig (atoms L)) R1).
  Notation h2 := (groups (has_dots L) e (nbig (atoms L) + nbig (atoms R1)) R2).
  Notation known len := (forall g, In g (left_groups e L') -> filter (unknown (map fst sizes)) g <> [] -> prodn (map len (filter (fun a => negb (unknown (map fst sizes) a)) g)) <> 0).
  Definition can (X : tensor A) := exists len : label -> nat, fits len (left_groups e L') (right_groups e L' R') (shp X) sizes /\ known len.

  Lemma not_sized : unknown (map fst sizes) (LName b) = true.
  Proof. cbn. destruct (str_mem b (map fst sizes)) eqn:E; [apply str_mem_In in E; contradiction|reflexivity]. Qed.

  (** the lengths with another length of the batch *)
  Lemma can_piece X x s : k <= length s -> shp X = firstn k s ++ count_at k X :: skipn k s -> shp x = firstn k s ++ count_at k x :: skipn k s -> can X -> can x.
  Proof.
    intros Hk SX Sx (len & Hf & Hd). pose proof (layer_ok r Hok os os' Hos p wt bt sizes L R W Hp WW PL PR PW Hns M HM) as OK.
    assert (Hdots : has_dots R = true -> has_dots L = true) by (rewrite (mo_dots _ _ _ _ _ _ OK); auto).
    destruct (fresh_labels r b p' L1 L2 R1 R2 Hp' e Hdots) as [F1 F2].
    exists (put (LName b) len (count_at k x)).
    rewrite (UnitLaws.left_pos r p L1 L2 R e Hp) in *. rewrite (left_more b L1 L2 Hb e), (right_more b L1 L2 R1 R2 Hb e) in *.
    destruct Hf as (G1 & G2 & G3). rewrite gshape_more in G1.
    assert (Hgl : length g1 <= length (gshape len (g1 ++ g2))) by (unfold gshape; rewrite map_length, app_length; lia).
    assert (Es : s = gshape len (g1 ++ g2)).
    { rewrite SX in G1. apply (f_equal (take_out (length g1))) in G1. rewrite (proj2 (put_back _ _ _ Hgl)), (proj2 (put_back _ _ _ Hk)) in G1. congruence. }
    assert (PUT : forall gs, ~ In (LName b) (concat gs) -> gshape (put (LName b) len (count_at (length g1) x)) gs = gshape len gs).
    { intros gs H. unfold gshape. apply map_ext_in. intros g Hg. f_equal. apply map_ext_in. intros l Hl. apply put_other. intros ->. apply H, in_concat. eauto. }
    split; [split; [|split]|].
    - rewrite gshape_more, put_at, PUT by exact F1. rewrite Sx, Es. reflexivity.
    - intros j n H. rewrite put_other by discriminate. apply G2, H.
    - intros v z H. rewrite put_other; [apply G3, H|]. intros E. injection E as ->. apply Hsz. apply in_map_iff. exists (b, z). auto.
    - intros g Hg Hu. apply in_groups_more in Hg as [->|Hg].
      + cbn [filter]. rewrite not_sized. cbn. lia.
      + rewrite (map_ext_in _ len).
        * apply Hd; [apply in_groups_more; auto|exact Hu].
        * intros l Hl. apply put_other. intros ->. apply filter_In in Hl as [Hl _]. apply F1, in_concat. eauto.
  Qed.

  Theorem einmix_chunks len Xs X w (c c' : option (tensor A)) :
    rank_fits L' (length (shp X)) e -> fits len (left_groups e L') (right_groups e L' R') (shp X) sizes -> known len ->
    (em_pre M <> None \/ em_post M <> None -> e < 8) -> (em_pre M' <> None \/ em_post M' <> None -> e < 8) ->
    wf w -> map Z.of_nat (shp w) = em_weight M' -> bias_of (em_bias M') c' -> bias_more (length (written_names R1)) c' c ->
    t_concat Xs k = Ok X -> (forall x, In x Xs -> wf x /\ count_at k x <> 0) ->
    exists Y Ys, call_einmix r lib iadd M' w c' X = Ok Y /\ Forall2 (fun x y => call_einmix r lib iadd M' w c' x = Ok y) Xs Ys /\ t_concat Ys k' = Ok Y.
  Proof.
    intros Hr Hf Hd He He' Ww Sw Bc Bm HX HXs. destruct (concat_shapes _ _ _ HX) as (Hne & s & Hk & Hsh).
    destruct (concat_slices k s Xs Hne Hk) as (X2 & E2 & WX & SX & _); [intros t Ht; split; [apply HXs, Ht|apply Hsh, Ht]|].
    assert (X2 = X) by congruence. subst X2.
    assert (Hr' : rank_fits L (length s) e).
    { apply (more_rank b L1 L2). rewrite SX, ins_length in Hr by exact Hk. exact Hr. }
    assert (CX : count_at k X = list_sum (map (count_at k) Xs)) by (apply (count_ins k s); auto).
    assert (NX : count_at k X <> 0).
    { rewrite CX. destruct Xs as [|t0 Xl]; [contradiction|]. destruct (HXs t0 (or_introl eq_refl)) as (_ & N). cbn [map list_sum fold_right]. lia. }
    assert (OX : can X) by (exists len; auto).
    assert (DOWN : forall X Y x i, can X -> shp x = s -> slice_of k i X x -> call_einmix r lib iadd M' w c' X = Ok Y ->
      count_at k' Y = count_at k X /\ exists y, slice_of k' i Y y /\ call_einmix r lib iadd M w c x = Ok y).
    { intros X0 Y0 x i (len0 & Hf0 & Hd0) Sx HS HY. rewrite <- Sx in Hr'.
      destruct (einmix_batch add mul zero one add_comm add_assoc mul_one lib HC iadd HI r Hok os os' Hos Hos' b p p' wt bt sizes L1 L2 R1 R2 W Hb Hp Hp' Hsz WW PL PR PL' PR' PW Hns M M' HM HM' e len0 X0 x w c c' i
        Hr' Hf0 Hd0 He He' HS Ww Sw Bc Bm) as (_ & _ & Y1 & y1 & E1 & E3 & E4 & E5).
      assert (Y1 = Y0) by congruence. subst Y1. split; [exact E5|]. exists y1. auto. }
    assert (UP : forall X n, can X -> wf X -> n <> 0 -> shp X = firstn k s ++ n :: skipn k s ->
      (forall i, i < n -> exists x y, slice_of k i X x /\ call_einmix r lib iadd M w c x = Ok y) -> exists Y, call_einmix r lib iadd M' w c' X = Ok Y).
    { intros X0 n (len0 & Hf0 & Hd0) W0 Hn S0 _. destruct (slice_exists X0 k n s 0 W0 Hk S0) as (x & HS & Sx); [lia|]. rewrite <- Sx in Hr'.
      destruct (einmix_batch add mul zero one add_comm add_assoc mul_one lib HC iadd HI r Hok os os' Hos Hos' b p p' wt bt sizes L1 L2 R1 R2 W Hb Hp Hp' Hsz WW PL PR PL' PR' PW Hns M M' HM HM' e len0 X0 x w c c' 0
        Hr' Hf0 Hd0 He He' HS Ww Sw Bc Bm) as (_ & _ & Y1 & y1 & E1 & _). eauto. }
    assert (EX : exists Y, call_einmix r lib iadd M' w c' X = Ok Y).
    { destruct (slice_exists X k (count_at k X) s 0 WX Hk) as (x & HS & Sx); [now rewrite CX|lia|]. rewrite <- Sx in Hr'.
      destruct (einmix_batch add mul zero one add_comm add_assoc mul_one lib HC iadd HI r Hok os os' Hos Hos' b p p' wt bt sizes L1 L2 R1 R2 W Hb Hp Hp' Hsz WW PL PR PL' PR' PW Hns M M' HM HM' e len X x w c c' 0
        Hr' Hf Hd He He' HS Ww Sw Bc Bm) as (_ & _ & Y1 & y1 & E1 & _). eauto. }
    destruct EX as [Y HY]. exists Y.
    destruct (chunks_down (call_einmix r lib iadd M' w c') (call_einmix r lib iadd M w c) k k' s Hk can DOWN UP Xs X Y HX) as (Ys & F & C); [|exact OX|exact HY|exists Ys; auto].
    intros x Hx. destruct (HXs x Hx) as [Wx Nx]. split; [|auto]. apply (can_piece X x s Hk); [now rewrite CX|apply Hsh, Hx|exact OX].
  Qed.
End Layer.
