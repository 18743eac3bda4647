(** * EinMix on a batch of nothing *)
From Verif Require Import Py Tensor TensorFacts ListFacts SpecSem SpecGrammar SpecEinsum SpecPattern SpecForms SpecOps SpecElements SpecBatch SpecBatches SpecLinear Parsing Compile Recipe Ops Backends Api
  ParseFacts ParseFacts2 ParseFacts3 StepFacts FrontFacts MainFacts UnitLaws BatchFacts PackBatch EinsumFacts3 Layers Einsum LayerFacts EinMix SpecEinMix MixFacts MixFacts2 MixFacts5 MixFacts7 MixFacts8 MixFacts9 MixLaws MixLaws2 MixBatch ChunkFacts MixChunks SpecEmpty BatchEmpty.

Section Mix.
  Context {A : Type} (add mul : A -> A -> A) (zero one : A).
  Context (add_comm : forall a b, add a b = add b a) (add_assoc : forall a b c, add a (add b c) = add (add a b) c) (mul_one : forall a, mul a one = a).
  Context (lib : pystr -> list (tensor A) -> result (tensor A)) (HC : einsum_contract add mul zero one lib).
  Context (iadd : tensor A -> tensor A -> result (tensor A)) (HI : iadd_contract add iadd).
  Context (r : runtime A) (Hok : runtime_ok r) (os os' : nat -> orders) (Hos : forall n, orders_ok (os n)) (Hos' : forall n, orders_ok (os' n)).
  Notation U := (rt_unicode r).
  Context (b p p' wt : pystr) (bt : option pystr) (sizes : list (pystr * Z)) (L1 L2 R1 R2 W : expr).
  Notation it := (Atom (AName b)).
  Notation L := (L1 ++ L2).
  Notation R := (R1 ++ R2).
  Notation L' := (L1 ++ it :: L2).
  Notation R' := (R1 ++ it :: R2).
  Context (Hb : b <> ell_name) (Hp : reads U p L R) (Hp' : reads U p' L' R') (Hsz : ~ In b (map fst sizes)).
  Context (WW : written U wt W) (PL' : SpecGrammar.plain L') (PR' : SpecGrammar.plain R') (PW : SpecGrammar.plain W) (Hns : NoDup (map fst sizes)).
  Context (M' : einmix (tensor A)) (HM' : EinMix U os os' p' wt bt sizes = Ok M').
  Context (e : nat).
  Notation k := (length (left_groups e L1)).
  Notation k' := (length (right_groups e L R1)).
  Notation g1 := (groups (has_dots L) e 0 L1).
  Notation g2 := (groups (has_dots L) e (nbig (atoms L1)) L2).
  Notation h1 := (groups (has_dots L) e (nbig (atoms L)) R1).
  Notation h2 := (groups (has_dots L) e (nbig (atoms L) + nbig (atoms R1)) R2).
  Notation known len := (forall g, In g (left_groups e L') -> filter (unknown (map fst sizes)) g <> [] -> prodn (map len (filter (fun a => negb (unknown (map fst sizes) a)) g)) <> 0).

  Lemma bias_given (c' : option (tensor A)) : bias_of (em_bias M') c' -> exists b0 : option (expr * tensor A), option_map snd b0 = c' /\
    match bt with
    | None => b0 = None
    | Some text => exists B b1, b0 = Some (B, b1) /\ written U text B /\ wf b1 /\ Some (map Z.of_nat (shp b1)) = em_bias M'
    end.
  Proof.
    intros Bc. set (len := size_of sizes).
    assert (Hlen : forall s z, In (s, z) sizes -> len s = z).
    { intros s z H. apply (size_unique sizes s z Hns H). }
    destruct (mix_shapes U (ro_unicode r Hok) os os' Hos p' wt bt sizes Hns L' R' W Hp' WW PL' PR' PW M' HM' len Hlen) as (_ & _ & HB).
    destruct bt as [text|].
    - destruct HB as (B & WB & EB). rewrite EB in Bc. destruct Bc as (b1 & -> & W1 & E1). exists (Some (B, b1)). split; [reflexivity|]. exists B, b1. rewrite EB, <- E1. auto.
    - rewrite HB in Bc. cbn in Bc. exists None. subst c'. auto.
  Qed.

  Theorem einmix_empty len X X0 w (c' : option (tensor A)) :
    rank_fits L' (length (shp X)) e -> fits len (left_groups e L') (right_groups e L' R') (shp X) sizes -> known len ->
    (em_pre M' <> None \/ em_post M' <> None -> e < 8) ->
    wf w -> map Z.of_nat (shp w) = em_weight M' -> bias_of (em_bias M') c' -> emptied k X X0 ->
    exists Y Y0, call_einmix r lib iadd M' w c' X = Ok Y /\ call_einmix r lib iadd M' w c' X0 = Ok Y0 /\ emptied k' Y Y0.
  Proof.
    intros Hr Hf Hd He Ww Sw Bc (WX & W0 & s & n & Hk & EX & E0).
    destruct (bias_given c' Bc) as (b0 & Eb & HB).
    pose proof (layer_ok r Hok os os' Hos p' wt bt sizes L' R' W Hp' WW PL' PR' PW Hns M' HM') as OK.
    assert (Hdots : has_dots R = true -> has_dots L = true) by (pose proof (mo_dots _ _ _ _ _ _ OK) as E; rewrite !more_dots in E; rewrite E; auto).
    destruct (fresh_labels r b p' L1 L2 R1 R2 Hp' e Hdots) as [F1 F2].
    assert (Hr0 : rank_fits L' (length (shp X0)) e) by (rewrite E0, <- EX || idtac; rewrite EX in Hr; rewrite E0; rewrite !app_length in *; exact Hr).
    set (len' := put (LName b) len 0). assert (Hlen : len' (LName b) = 0) by apply put_at.
    assert (PUT : forall gs, ~ In (LName b) (concat gs) -> gshape len' gs = gshape len gs).
    { intros gs H. unfold gshape. apply map_ext_in. intros g Hg. f_equal. apply map_ext_in. intros l Hl. apply put_other. intros ->. apply H, in_concat. eauto. }
    assert (Hgl : length g1 <= length (gshape len (g1 ++ g2))) by (unfold gshape; rewrite map_length, app_length; lia).
    rewrite (UnitLaws.left_pos r p L1 L2 R e Hp) in *.
    assert (Both : s = gshape len (g1 ++ g2) /\ n = len (LName b)).
    { destruct Hf as (G1 & _). rewrite (left_more b L1 L2 Hb e), gshape_more, EX in G1. split.
      - apply (f_equal (take_out (length g1))) in G1. rewrite (proj2 (put_back _ _ _ Hgl)), (proj2 (put_back _ _ _ Hk)) in G1. congruence.
      - apply (f_equal (fun l => nth (length g1) l 0)) in G1. rewrite (proj1 (put_back _ _ _ Hgl)), (proj1 (put_back _ _ _ Hk)) in G1. congruence. }
    destruct Both as [Es En].
    assert (Hf0 : fits len' (left_groups e L') (right_groups e L' R') (shp X0) sizes).
    { rewrite (left_more b L1 L2 Hb e), (right_more b L1 L2 R1 R2 Hb e) in *. destruct Hf as (G1 & G2 & G3). split; [|split].
      - rewrite gshape_more, Hlen, PUT by exact F1. rewrite E0, Es. reflexivity.
      - intros j m H. unfold len'. rewrite put_other by discriminate. apply G2, H.
      - intros v z H. unfold len'. rewrite put_other; [apply G3, H|]. intros E. injection E as ->. apply Hsz. apply in_map_iff. exists (b, z). auto. }
    assert (Hu : unknown (map fst sizes) (LName b) = true).
    { cbn. destruct (str_mem b (map fst sizes)) eqn:E; [apply str_mem_In in E; contradiction|reflexivity]. }
    assert (Hd0 : known len').
    { rewrite (left_more b L1 L2 Hb e) in *. intros g Hg Hun. apply in_groups_more in Hg as [->|Hg].
      - cbn [filter]. rewrite Hu. cbn. lia.
      - rewrite (map_ext_in _ len).
        + apply Hd; [apply in_groups_more; auto|exact Hun].
        + intros l Hl. apply put_other. intros ->. apply filter_In in Hl as [Hl _]. apply F1, in_concat. eauto. }
    destruct (call_mixes add mul zero one add_comm add_assoc mul_one lib HC iadd HI r Hok os os' Hos Hos' p' wt bt sizes L' R' W Hp' WW PL' PR' PW Hns M' HM' e len X w WX Ww Hr Hf Hd He Sw b0 HB) as (Y & EY & WY & SY & _).
    destruct (call_mixes add mul zero one add_comm add_assoc mul_one lib HC iadd HI r Hok os os' Hos Hos' p' wt bt sizes L' R' W Hp' WW PL' PR' PW Hns M' HM' e len' X0 w W0 Ww Hr0 Hf0 Hd0 He Sw b0 HB) as (Y0 & EY0 & WY0 & SY0 & _).
    rewrite Eb in *. exists Y, Y0. split; [exact EY|]. split; [exact EY0|]. split; [exact WY|]. split; [exact WY0|].
    exists (gshape len (h1 ++ h2)), n. rewrite (right_more b L1 L2 R1 R2 Hb e), gshape_more in *. split; [unfold gshape, right_groups; rewrite map_length, app_length; lia|]. split.
    - rewrite SY, En. reflexivity.
    - rewrite SY0, Hlen, PUT by exact F2. reflexivity.
  Qed.
End Mix.
