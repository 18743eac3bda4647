(** * Unpacking a batch in pieces, some of them empty *)
From Verif Require Import Py Tensor ListFacts TensorFacts SpecSem SpecGrammar SpecBatch SpecBatches SpecPacking Parsing Recipe Ops Backends Api Packing
  FrontFacts2 BatchFacts PackFacts2 PackFacts3 PackFacts4 PackFacts5 PackBatch ChunkFacts SpecSelect SelectFacts SpecChunks PackChunks SpecEmpty BatchEmpty ChunkEmpty PackEmpty.

Section PackChunksAll.
  Context {A : Type} (r : runtime A) (Hr : runtime_ok r).
  Implicit Types X x T : tensor A.

  Lemma unpack_count x ps p ts : unpack r x ps p = Ok ts -> length ts = length ps.
  Proof.
    intros E. destruct (unpack_inv r Hr x ps p ts E) as (before & after & b & n & a & Hp & S & Lb & La).
    rewrite (unpack_form r Hr x ps p before after b n a Hp S Lb La) in E. destruct (1 <? _); [discriminate|].
    destruct (unpack_pieces _ _ _ _ _ _) as [ts'|] eqn:U; [|discriminate]. injection E as ->. unfold unpack_pieces in U.
    apply bind_Ok in U as (sp & _ & U). apply mapM_length in U. rewrite U. unfold enumerate. generalize 0. clear. induction ps as [|q ps IH]; intros k; [reflexivity|]. cbn. now rewrite IH.
  Qed.

  Lemma unpack_chunks_all w p before after (place : tensor A -> nat) ns X Xs ps b N a Ts :
    pack_pattern (rt_unicode r) p before after -> dim_of w before after place ->
    shp X = b ++ [N] ++ a -> length b = length before -> length a = length after -> prodn (b ++ a) <> 0 ->
    ps <> [] -> Forall closed_shape ps ->
    cut_at ns place X Xs -> unpack r X ps p = Ok Ts ->
    exists Pss, Forall2 (fun x Zs => unpack r x ps p = Ok Zs) Xs Pss /\
      forall q T P, nth_error Ts q = Some T -> Forall2 (fun Zs z => nth_error Zs q = Some z) Pss P -> t_concat P (place T) = Ok T.
  Proof.
    intros Hp HD SX Lb La HP Hn CL (HX & HW & _) HK.
    set (F := fun q x => match unpack r x ps p with Ok l => match nth_error l q with Some z => Ok z | None => Err IndexError end | Err e => Err e end).
    assert (FOK : forall q x z, F q x = Ok z <-> exists l, unpack r x ps p = Ok l /\ nth_error l q = Some z).
    { intros q x z. unfold F. destruct (unpack r x ps p) as [l|e]; [destruct (nth_error l q) as [y|] eqn:N0|].
      - split; [intros [= ->]; eauto|]. intros (l' & [= ->] & E). congruence.
      - split; [discriminate|]. intros (l' & [= ->] & E). congruence.
      - split; [discriminate|]. intros (l' & [=] & _). }
    assert (HT : forall q, In q ps -> tame (rt_lib r) q).
    { intros q Hq. right. intros d Hd. rewrite Forall_forall in CL. specialize (CL q Hq d Hd). lia. }
    assert (ALL : forall q T, nth_error Ts q = Some T -> exists Ys, Forall2 (fun x y => F q x = Ok y) Xs Ys /\ t_concat Ys (place T) = Ok T).
    { intros q T HqT. apply (empties_down (F q) (place X) (place T) X Xs T); auto.
      - intros x0 E0. destruct (unpack_empty r Hr w p before after place X x0 ps Ts Hp HD E0 HK) as [U _]. destruct (U CL) as (Zs & UZ & FZ).
        destruct (forall2_nth _ _ _ q T FZ HqT) as (z & Ez & Hz). exists z. split; [|exact Hz]. apply FOK. eauto.
      - apply FOK. eauto.
      - intros Zs HZ WZ.
        assert (NS : forall n, In n (map (count_at (place X)) Zs) -> n <> 0) by (intros n H; apply in_map_iff in H as (z & <- & Hz); apply WZ, Hz).
        assert (CZ : cut_at (map (count_at (place X)) Zs) place X Zs) by (split; [exact HZ|split; [intros z Hz; apply WZ, Hz|reflexivity]]).
        destruct (unpack_chunks r Hr w (map (count_at (place X)) Zs) NS p before after place X Zs ps b N a Ts Hp HD SX Lb La HP Hn HT CZ HK) as (Pss & FP & HC).
        assert (LT : q < length ps) by (rewrite <- (unpack_count _ _ _ _ HK); apply nth_error_Some; congruence).
        assert (COL : exists P, Forall2 (fun parts z => nth_error parts q = Some z) Pss P /\ Forall2 (fun x y => F q x = Ok y) Zs P).
        { clear - FP LT FOK Hr. induction FP as [|x parts Zs Pss E FP IH]; [exists []; split; constructor|]. destruct IH as (P & I1 & I2).
          destruct (nth_error parts q) as [z|] eqn:N0; [|apply nth_error_None in N0; rewrite (unpack_count _ _ _ _ E) in N0; lia].
          exists (z :: P). split; constructor; auto. apply FOK. eauto. }
        destruct COL as (P & P1 & P2). exists P. split; [exact P2|]. exact (HC q T P HqT P1). }
    assert (EX : exists Pss, Forall2 (fun x Zs => unpack r x ps p = Ok Zs) Xs Pss).
    { destruct Ts as [|T0 Ts0]; [apply unpack_count in HK; destruct ps; [congruence|discriminate]|].
      destruct (ALL 0 T0 eq_refl) as (Ys & FY & _). clear - FY FOK. induction FY as [|x y Xs Ys E FY IH]; [exists []; constructor|].
      destruct IH as (Pss & IH). apply FOK in E as (l & E & _). exists (l :: Pss). constructor; auto. }
    destruct EX as (Pss & FP). exists Pss. split; [exact FP|]. intros q T P HqT FC. destruct (ALL q T HqT) as (Ys & FY & CY).
    replace P with Ys; [exact CY|]. clear - FP FC FY FOK. revert P Ys FC FY. induction FP as [|x parts Xs Pss E FP IH]; intros P Ys FC FY; inversion FC; inversion FY; subst; [reflexivity|].
    f_equal; [|apply IH; auto]. match goal with H : F q x = Ok _ |- _ => apply FOK in H as (l & E' & E2) end. congruence.
  Qed.
End PackChunksAll.
