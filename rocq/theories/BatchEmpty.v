(** * Operations on a batch of nothing *)
From Verif Require Import Py Tensor ListFacts TensorFacts SpecSem SpecGrammar SpecForms SpecPattern SpecOps SpecBatch SpecEmpty Parsing Compile Recipe Ops Backends Api
  StepFacts ParseFacts ParseFacts2 ParseFacts3 RecipeFacts InferFacts ApplyFacts FrontFacts FrontFacts2 FrontFacts3 MainFacts MainFacts2 ReduceFacts MainFacts3 CallFacts RelabelFacts Laws ApiFacts ApiFacts2 RelabelLaws
  UnitLaws ApiFacts4 ApiFacts6 BatchFacts Layers SpecLayers LayerFacts.

Section Empty.
  Context {A : Type} (r : runtime A) (Hok : runtime_ok r).
  Notation U := (rt_unicode r).
  Notation ins k s n := (firstn k s ++ n :: skipn k s).
  Implicit Types X Y : tensor A.
  Lemma prod_zero k s : prodn (ins k s 0) = 0.
  Proof. rewrite prodn_app. cbn. lia. Qed.
  Lemma emptied_exists (k : nat) (X : tensor A) : wf X -> k < length (shp X) -> exists X', emptied k X X' /\ forall X'', emptied k X X'' -> X'' = X'.
  Proof.
    intros W Hk. set (s := take_out k (shp X)). assert (Es : shp X = ins k s (nth k (shp X) 0) /\ k <= length s).
    { assert (E : shp X = firstn k (shp X) ++ nth k (shp X) 0 :: skipn (S k) (shp X)).
      { clear W s. revert k Hk. generalize (shp X). induction l as [|d l IH]; intros [|k] H; cbn in *; try lia; [reflexivity|]. f_equal. apply IH. lia. }
      subst s. unfold take_out. assert (Hf : length (firstn k (shp X)) = k) by (rewrite firstn_length; lia).
      split; [|rewrite app_length, Hf; lia]. rewrite E at 1. set (a := firstn k (shp X)) in *. rewrite <- Hf, ins_app. reflexivity. }
    destruct Es as [Es Hl]. exists (mkT (ins k s 0) []). split.
    - split; [exact W|]. split; [unfold wf; cbn [shp dat]; rewrite prod_zero; reflexivity|]. exists s, (nth k (shp X) 0). auto.
    - intros [sh d] (_ & W' & s' & n' & Hk' & E1 & E2). cbn [shp] in E2. assert (s' = s).
      { rewrite Es in E1. apply (f_equal (take_out k)) in E1. rewrite (proj2 (put_back _ _ _ Hl)), (proj2 (put_back _ _ _ Hk')) in E1. congruence. }
      subst s' sh. unfold wf in W'. cbn [shp dat] in W'. rewrite prod_zero in W'. destruct d; [reflexivity|discriminate].
  Qed.
  Lemma op_empty b (p p' : pystr) (L1 L2 R1 R2 : expr) (sizes : list (pystr * Z)) f e X Y X0 :
    b <> ell_name -> reads U p (L1 ++ L2) (R1 ++ R2) -> reads U p' (L1 ++ Atom (AName b) :: L2) (R1 ++ Atom (AName b) :: R2) ->
    ~ In b (map fst sizes) -> NoDup (map fst sizes) -> SpecBatch.operation r p sizes f ->
    rank_fits (L1 ++ Atom (AName b) :: L2) (length (shp X)) e ->
    emptied (length (left_groups e L1)) X X0 -> f (One X) p' = Ok Y ->
    exists Y0, f (One X0) p' = Ok Y0 /\ emptied (length (right_groups e (L1 ++ L2) R1)) Y Y0.
  Proof.
    intros Hb Hp Hp' Hsz Hn Ho Hr HE H. destruct (operation_kind r Hok b p p' L1 L2 R1 R2 sizes Hp Hp' f Ho) as (rd & w & red & h & K & K' & Ef).
    rewrite Ef in H. setoid_rewrite Ef. clear Ef Ho f. unfold reduce in *.
    rewrite (position_left r p L1 L2 R1 R2 Hp) in HE. destruct HE as (WX & W0 & s & n & Hl & EX & E0).
    destruct (proj1 (op_iff r Hok rd w red h X p' sizes Y K' Hn WX) H) as [Hs [L0 [R0 [e0 [len [Hc O]]]]]]. clear H.
    destruct (reads_fun U (ro_unicode r Hok) p' _ _ _ _ (co_reads _ _ _ _ _ _ _ _ _ Hc) Hp') as [-> ->].
    assert (e0 = e) by (eapply rank_fits_fun; [exact (co_rank _ _ _ _ _ _ _ _ _ Hc)|exact Hr]). subst e0.
    assert (Ea : len (LName b) = n).
    { pose proof (co_fits _ _ _ _ _ _ _ _ _ Hc) as [F _]. rewrite left_more, gshape_more, EX in F by exact Hb.
      apply (f_equal (fun l => nth (length (groups (has_dots (L1 ++ L2)) e 0 L1)) l 0)) in F.
      rewrite !(fun v l H => proj1 (put_back (length (groups (has_dots (L1 ++ L2)) e 0 L1)) v l H)) in F; [exact F|exact Hl|].
      unfold gshape. rewrite map_length, app_length. lia. }
    assert (Hc0 : call_ok U w p sizes s (L1 ++ L2) (R1 ++ R2) e len).
    { apply (ok_less r b p p' L1 L2 R1 R2 sizes Hb Hp Hp' Hsz); [rewrite Ea, <- EX; exact Hc|exact Hl]. }
    destruct (fresh_labels r b p' L1 L2 R1 R2 Hp' e (co_dots _ _ _ _ _ _ _ _ _ Hc0)) as [F1 F2].
    set (len' := put (LName b) len 0). assert (Hlen : len' (LName b) = 0) by apply put_at.
    assert (Hc1 : call_ok U w p sizes s (L1 ++ L2) (R1 ++ R2) e len').
    { apply (fits_call_ok U w p sizes s (L1 ++ L2) (R1 ++ R2) e len len' Hc0). destruct (co_fits _ _ _ _ _ _ _ _ _ Hc0) as (Q1 & Q2 & Q3).
      split; [|split].
      - rewrite <- Q1. rewrite left_less. apply gshape_same. intros c Hc'. apply put_other. intros ->. contradiction.
      - intros k m Hin. unfold len'. rewrite put_other by discriminate. exact (Q2 k m Hin).
      - intros t z Hin. unfold len'. rewrite put_other; [exact (Q3 t z Hin)|]. intros [= ->]. apply Hsz. apply in_map_iff. exists (b, z). auto. }
    rewrite left_more, right_more in O by exact Hb.
    set (h1 := groups (has_dots (L1 ++ L2)) e (nbig (atoms (L1 ++ L2))) R1) in *.
    set (h2 := groups (has_dots (L1 ++ L2)) e (nbig (atoms (L1 ++ L2)) + nbig (atoms R1)) R2) in *.
    assert (ER : gshape len' (h1 ++ h2) = gshape len (h1 ++ h2)) by (apply gshape_same; intros c Hc'; apply put_other; intros ->; contradiction).
    assert (EY : wf Y /\ shp Y = gshape len (h1 ++ [LName b] :: h2)) by (destruct O as [[_ (W & E & _)]|[_ [_ (W & E & _)]]]; auto). destruct EY as [WY EY].
    assert (Hh : length h1 <= length (gshape len (h1 ++ h2))) by (unfold gshape; rewrite map_length, app_length; lia).
    exists (mkT (gshape len' (h1 ++ [LName b] :: h2)) []).
    assert (WV : wf (mkT (gshape len' (h1 ++ [LName b] :: h2)) ([] : list A))).
    { unfold wf. cbn [shp dat]. rewrite gshape_more, Hlen, prod_zero. reflexivity. }
    split.
    - apply (op_iff_at r Hok rd w red h X0 p' sizes (L1 ++ Atom (AName b) :: L2) (R1 ++ Atom (AName b) :: R2) e len' _ K' Hn W0 Hs).
      { pose proof (ok_more r b p p' L1 L2 R1 R2 sizes Hb Hp' Hsz e w len' s Hc1) as Q. rewrite Hlen in Q. rewrite E0. exact Q. }
      rewrite left_more, right_more by exact Hb. fold h1 h2.
      assert (NO : forall ix l, In (LName b) l -> within len' ix l -> False) by (intros ix l Hin Hix; specialize (Hix _ Hin); rewrite Hlen in Hix; lia).
      assert (IN : forall q1 q2 : list (list label), In (LName b) (concat (q1 ++ [LName b] :: q2))) by (intros q1 q2; rewrite concat_app, in_app_iff; right; left; reflexivity).
      unfold outcome in *. destruct O as [[Em _]|[Em [Eh _]]]; [left|right].
      + split; [exact Em|]. split; [exact WV|]. split; [reflexivity|]. intros ix Hix. exfalso. refine (NO ix _ _ Hix). apply in_app_iff. left. apply IN.
      + split; [exact Em|]. split; [exact Eh|]. split; [exact WV|]. split; [reflexivity|]. intros ix Hix. exfalso. refine (NO ix _ _ Hix). apply IN.
    - split; [exact WY|]. split; [exact WV|]. exists (gshape len (h1 ++ h2)), n. split; [exact Hh|]. split.
      + rewrite EY, gshape_more, Ea. reflexivity.
      + cbn [shp]. rewrite gshape_more, Hlen, ER. reflexivity.
  Qed.
  Lemma layer_empty b (p p' : pystr) (L1 L2 R1 R2 : expr) (sizes : list (pystr * Z)) f e (M : layer (tensor A)) X Y X0 :
    b <> ell_name -> reads U p (L1 ++ L2) (R1 ++ R2) -> reads U p' (L1 ++ Atom (AName b) :: L2) (R1 ++ Atom (AName b) :: R2) ->
    ~ In b (map fst sizes) -> NoDup (map fst sizes) -> SpecBatch.operation r p sizes f ->
    like_function r M p' (fun x => f (One x) p') ->
    rank_fits (L1 ++ Atom (AName b) :: L2) (length (shp X)) e -> e < 8 ->
    emptied (length (left_groups e L1)) X X0 -> call_layer r M X = Ok Y ->
    exists Y0, call_layer r M X0 = Ok Y0 /\ emptied (length (right_groups e (L1 ++ L2) R1)) Y Y0.
  Proof.
    intros Hb Hp Hp' Hs Hn Hop (l & rr & Hl & Hlike) Hr He HE HY.
    destruct (reads_fun U (ro_unicode _ Hok) _ _ _ _ _ Hl Hp') as [-> ->].
    assert (EL : length (shp X0) = length (shp X)) by (destruct HE as (_ & _ & s & n & Hk & EX & E0); rewrite EX, E0, !app_length; reflexivity).
    rewrite (proj1 (Hlike X) e Hr He) in HY.
    destruct (op_empty b p p' L1 L2 R1 R2 sizes f e X Y X0 Hb Hp Hp' Hs Hn Hop Hr HE HY) as (V & HV & SV).
    exists V. split; [|exact SV]. rewrite (proj1 (Hlike X0) e); [exact HV|rewrite EL; exact Hr|exact He].
  Qed.
End Empty.
