(** * EinMix on a batch in pieces, some of them empty *)
From Verif Require Import Py Tensor TensorFacts ListFacts SpecSem SpecGrammar SpecEinsum SpecPattern SpecForms SpecOps SpecElements SpecBatch SpecBatches SpecLinear Parsing Compile Recipe Ops Backends Api
  ParseFacts ParseFacts2 ParseFacts3 StepFacts FrontFacts MainFacts UnitLaws BatchFacts PackBatch EinsumFacts3 Layers Einsum LayerFacts EinMix SpecEinMix MixFacts MixFacts2 MixFacts5 MixFacts7 MixFacts8 MixFacts9 MixLaws MixLaws2 MixBatch ChunkFacts MixChunks SpecEmpty BatchEmpty BatchEmptyMix ChunkEmpty.

Section Layer.
  Context {A : Type} (add mul : A -> A -> A) (zero one : A).
  Context (add_comm : forall a b, add a b = add b a) (add_assoc : forall a b c, add a (add b c) = add (add a b) c) (mul_one : forall a, mul a one = a).
  Context (lib : pystr -> list (tensor A) -> result (tensor A)) (HC : einsum_contract add mul zero one lib).
  Context (iadd : tensor A -> tensor A -> result (tensor A)) (HI : iadd_contract add iadd).
  Context (r : runtime A) (Hok : runtime_ok r) (os os' : nat -> orders) (Hos : forall n, orders_ok (os n)) (Hos' : forall n, orders_ok (os' n)).
  Notation U := (rt_unicode r).
  Context (b p p' wt : pystr) (bt : option pystr) (sizes : list (pystr * Z)) (L1 L2 R1 R2 W : expr).
  Notation it := (Atom (AName b)).
  Notation L := (L1 ++ L2).
  Notation R := (R1 ++ R2).
  Notation L' := (L1 ++ it :: L2).
  Notation R' := (R1 ++ it :: R2).
  Context (Hb : b <> ell_name) (Hp : reads U p L R) (Hp' : reads U p' L' R') (Hsz : ~ In b (map fst sizes)).
  Context (WW : written U wt W) (PL : plain L) (PR : plain R) (PL' : plain L') (PR' : plain R') (PW : plain W) (Hns : NoDup (map fst sizes)).
  Context (M M' : einmix (tensor A)) (HM : EinMix U os os' p wt bt sizes = Ok M) (HM' : EinMix U os os' p' wt bt sizes = Ok M').
  Context (e : nat).
  Notation k := (length (left_groups e L1)).
  Notation k' := (length (right_groups e L R1)).
  Notation g1 := (groups (has_dots L) e 0 L1).
  Notation g2 := (groups (has_dots L) e (nbig (atoms L1)) L2).
  Notation h1 := (groups (has_dots L) e (nbig (atoms L)) R1).
  Notation h2 := (groups (has_dots L) e (nbig (atoms L) + nbig (atoms R1)) R2).
  Notation known len := (forall g, In g (left_groups e L') -> filter (unknown (map fst sizes)) g <> [] -> prodn (map len (filter (fun a => negb (unknown (map fst sizes) a)) g)) <> 0).

  Theorem einmix_chunks_all len Xs X w (c c' : option (tensor A)) :
    rank_fits L' (length (shp X)) e -> fits len (left_groups e L') (right_groups e L' R') (shp X) sizes -> known len ->
    (em_pre M <> None \/ em_post M <> None -> e < 8) -> (em_pre M' <> None \/ em_post M' <> None -> e < 8) ->
    wf w -> map Z.of_nat (shp w) = em_weight M' -> bias_of (em_bias M') c' -> bias_more (length (written_names R1)) c' c ->
    t_concat Xs k = Ok X -> (forall x, In x Xs -> wf x) ->
    exists Y Ys, call_einmix r lib iadd M' w c' X = Ok Y /\ Forall2 (fun x y => call_einmix r lib iadd M' w c' x = Ok y) Xs Ys /\ t_concat Ys k' = Ok Y.
  Proof.
    intros Hr Hf Hd He He' Ww Sw Bc Bm HX HW. destruct (concat_shapes _ _ _ HX) as (Hne & s & Hk & Hsh).
    destruct (concat_shape _ _ _ s HX Hk Hsh) as [SX WX].
    assert (EM : forall x0, emptied k X x0 -> exists Y Y0, call_einmix r lib iadd M' w c' X = Ok Y /\ call_einmix r lib iadd M' w c' x0 = Ok Y0 /\ emptied k' Y Y0).
    { intros x0 H. exact (einmix_empty add mul zero one add_comm add_assoc mul_one lib HC iadd HI r Hok os os' Hos Hos' b p p' wt bt sizes L1 L2 R1 R2 W Hb Hp Hp' Hsz WW PL' PR' PW Hns M' HM' e len X x0 w c' Hr Hf Hd He' Ww Sw Bc H). }
    destruct (emptied_exists k X WX) as (x0 & E0 & _); [rewrite SX, ins_length by exact Hk; lia|].
    destruct (EM x0 E0) as (Y & _ & EY & _). exists Y.
    destruct (empties_down (fun x => call_einmix r lib iadd M' w c' x) k k' X Xs Y) as (Ys & FY & CY); auto.
    - intros x1 H1. destruct (EM x1 H1) as (Y1 & Y0 & G1 & G2 & G3). assert (Y1 = Y) by congruence. subst Y1. eauto.
    - intros Zs HZ HZs.
      destruct (einmix_chunks add mul zero one add_comm add_assoc mul_one lib HC iadd HI r Hok os os' Hos Hos' b p p' wt bt sizes L1 L2 R1 R2 W Hb Hp Hp' Hsz WW PL PR PL' PR' PW Hns M M' HM HM' e len Zs X w c c' Hr Hf Hd He He' Ww Sw Bc Bm HZ HZs) as (Y1 & Ys & G1 & G2 & G3).
      assert (Y1 = Y) by congruence. subst Y1. eauto.
    - exists Ys. auto.
  Qed.
End Layer.
