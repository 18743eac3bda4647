(** * A batch in pieces, some of them empty *)
From Verif Require Import Py Tensor ListFacts TensorFacts SpecSem SpecGrammar SpecForms SpecPattern SpecOps Parsing Compile Recipe Ops Backends Api PackFacts2 ApiFacts4 FrontFacts2 SpecBatch BatchFacts Layers SpecLayers LayerFacts ChunkFacts SpecEmpty BatchEmpty.

Section Thin.
  Context {A : Type}.
  Implicit Types X x Y y t : tensor A.
  Notation ins k s n := (firstn k s ++ n :: skipn k s).
  Notation total k ts := (list_sum (map (count_at k) ts)).

  (** [l'] is [l] without some elements with [Q] *)
  Inductive thin {B} (Q : B -> Prop) : list B -> list B -> Prop :=
  | thin_nil : thin Q [] []
  | thin_keep b l l' : thin Q l l' -> thin Q (b :: l) (b :: l')
  | thin_drop b l l' : Q b -> thin Q l l' -> thin Q (b :: l) l'.
  Lemma thin_in {B} (Q : B -> Prop) l l' b : thin Q l l' -> In b l' -> In b l.
  Proof. induction 1; cbn [In]; intros; intuition. Qed.
  Lemma thin_or {B} (Q : B -> Prop) l l' b : thin Q l l' -> In b l -> In b l' \/ Q b.
  Proof. induction 1; cbn [In]; intros Hb; [auto| |]; destruct Hb as [<-|Hb]; auto; destruct (IHthin Hb); auto. Qed.
  Lemma thin_filter {B} (p : B -> bool) (Q : B -> Prop) l : (forall b, p b = false -> Q b) -> thin Q l (filter p l).
  Proof. intros H. induction l as [|b l IH]; cbn [filter]; [constructor|]. destruct (p b) eqn:E; [now apply thin_keep|now apply thin_drop; [apply H|]]. Qed.
  Lemma thin_more {B C} (p : B -> bool) (P : B -> C -> Prop) (Q : C -> Prop) l l1 : Forall2 P (filter p l) l1 ->
    (forall b, In b l -> p b = false -> exists c, P b c /\ Q c) -> exists l', Forall2 P l l' /\ thin Q l' l1.
  Proof.
    revert l1. induction l as [|b l IH]; cbn [filter]; intros l1 F H.
    - inversion F. exists []. split; constructor.
    - destruct (p b) eqn:E.
      + inversion F as [|? c ? l2 Hc F2]; subst. destruct (IH l2 F2) as (l' & F' & T); [intros; apply H; cbn; auto|]. exists (c :: l'). split; [constructor; auto|now constructor].
      + destruct (IH l1 F) as (l' & F' & T); [intros; apply H; cbn; auto|]. destruct (H b) as (c & Hc & Qc); [cbn; auto|exact E|]. exists (c :: l'). split; [constructor; auto|now constructor].
  Qed.
  Lemma thin_less {B C} (p : B -> bool) (P : B -> C -> Prop) (Q : C -> Prop) l l' : Forall2 P l l' ->
    (forall b c, In b l -> p b = false -> P b c -> Q c) -> exists l1, Forall2 P (filter p l) l1 /\ thin Q l' l1.
  Proof.
    intros F. induction F as [|b c l l' Hc F IH]; cbn [filter]; intros H; [exists []; split; constructor|].
    destruct IH as (l1 & F1 & T); [intros b0 c0 Hin; apply H; cbn; auto|]. destruct (p b) eqn:E.
    - exists (c :: l1). split; [constructor; auto|now constructor].
    - exists l1. split; [exact F1|]. apply thin_drop; [|exact T]. apply (H b c); cbn; auto.
  Qed.

  Lemma replace_self k (idx : list nat) : replace_nth k (nth k idx 0) idx = idx.
  Proof. unfold replace_nth. revert idx. induction k as [|k IH]; intros [|i idx]; try reflexivity. cbn [firstn skipn nth app]. f_equal. apply IH. Qed.
  Lemma get_thin k ts ts' : thin (fun t => count_at k t = 0) ts ts' -> forall idx, concat_get ts k idx = concat_get ts' k idx.
  Proof.
    induction 1 as [|t ts ts' H IH|t ts ts' Q H IH]; intros idx; cbn [concat_get]; [reflexivity| |].
    - now rewrite IH.
    - unfold count_at in Q. rewrite Q, Nat.sub_0_r, replace_self. destruct (Nat.ltb_spec (nth k idx 0) 0); [lia|]. apply IH.
  Qed.
  Lemma total_thin k ts ts' : thin (fun t => count_at k t = 0) ts ts' -> total k ts = total k ts'.
  Proof. induction 1 as [|t ts ts' H IH|t ts ts' Q H IH]; cbn [map list_sum fold_right] in *; unfold list_sum in *; lia. Qed.
  Lemma concat_thin k s ts ts' : thin (fun t => count_at k t = 0) ts ts' -> ts' <> [] -> k <= length s ->
    (forall t, In t ts -> shp t = ins k s (count_at k t)) -> t_concat ts k = t_concat ts' k.
  Proof.
    intros T Hne Hk Hs.
    assert (AT : forall l, l <> [] -> (forall t, In t l -> In t ts) -> t_concat l k = tabulate (ins k s (total k l)) (concat_get l k)).
    { intros [|t0 l] H Hin; [contradiction|]. unfold t_concat. pose proof (Hs t0 (Hin t0 (or_introl eq_refl))) as S0.
      assert (L0 : k <? length (shp t0) = true) by (apply Nat.ltb_lt; rewrite S0, ins_length by exact Hk; lia).
      rewrite L0. assert (EF : forallb (fun t => shape_eqb (replace_nth k 0 (shp t)) (replace_nth k 0 (shp t0))) (t0 :: l) = true).
      { apply forallb_forall. intros t Ht. apply shape_eqb_eq. rewrite (Hs t (Hin t Ht)), S0, !replace_ins by exact Hk. reflexivity. }
      rewrite EF. cbn [andb]. rewrite S0, replace_ins by exact Hk. reflexivity. }
    rewrite (AT ts), (AT ts'); auto.
    - rewrite (total_thin k ts ts' T). unfold tabulate. f_equal. apply mapM_ext_in. intros idx _. now apply get_thin.
    - intros t. now apply (thin_in (fun t => count_at k t = 0)).
    - intros ->. inversion T. congruence.
  Qed.
  Lemma concat_shape ts k X s : t_concat ts k = Ok X -> k <= length s -> (forall t, In t ts -> shp t = ins k s (count_at k t)) -> shp X = ins k s (total k ts) /\ wf X.
  Proof.
    intros H Hk Hs. unfold t_concat in H. destruct ts as [|t0 l]; [discriminate|]. destruct (_ && _); [|discriminate].
    destruct (tabulate_Ok _ _ _ H) as (W & S & _). split; [|exact W]. rewrite S, (Hs t0 (or_introl eq_refl)), replace_ins by exact Hk. reflexivity.
  Qed.
  Lemma empty_same (x y : tensor A) k s : wf x -> wf y -> shp x = ins k s 0 -> shp y = ins k s 0 -> x = y.
  Proof.
    destruct x as [sx dx], y as [sy dy]. unfold wf. cbn [shp dat]. intros Wx Wy -> ->. rewrite prod_zero in Wx, Wy.
    destruct dx, dy; try discriminate. reflexivity.
  Qed.
  Lemma concat_empties ts k Y s : ts <> [] -> k <= length s -> wf Y -> shp Y = ins k s 0 -> (forall t, In t ts -> t = Y) -> t_concat ts k = Ok Y.
  Proof.
    intros Hne Hk WY SY H. assert (C : count_at k Y = 0) by (apply (count_ins k s); auto).
    destruct (concat_slices k s ts Hne Hk) as (Z & EZ & WZ & SZ & _). { intros t Ht. rewrite (H t Ht), C. auto. }
    rewrite EZ. f_equal. apply (empty_same Z Y k s WZ WY); [|exact SY]. rewrite SZ. f_equal. f_equal.
    clear - H C. induction ts as [|t l IH]; [reflexivity|]. cbn [map list_sum fold_right] in *. rewrite (H t (or_introl eq_refl)), C. cbn. apply IH. intros; apply H; now right.
  Qed.

  Section Abstract.
    Variables (F : tensor A -> result (tensor A)) (k k' : nat) (X : tensor A).
    Notation full := (fun x : tensor A => negb (count_at k x =? 0)).

    Lemma full_false x : full x = false -> count_at k x = 0.
    Proof. intros H. apply negb_false_iff, Nat.eqb_eq in H. exact H. Qed.
    Lemma full_true x : full x = true -> count_at k x <> 0.
    Proof. intros H. apply negb_true_iff, Nat.eqb_neq in H. exact H. Qed.
    Lemma emptied_shape y y0 s n : emptied k' y y0 -> k' <= length s -> shp y = ins k' s n -> shp y0 = ins k' s 0.
    Proof.
      intros (_ & _ & s0 & n0 & Hk0 & E1 & E2) Hk E. rewrite E in E1. apply (f_equal (take_out k')) in E1.
      rewrite (proj2 (put_back _ _ _ Hk)), (proj2 (put_back _ _ _ Hk0)) in E1. congruence.
    Qed.

    Lemma empties_down Xs Y : (forall x0, emptied k X x0 -> exists y0, F x0 = Ok y0 /\ emptied k' Y y0) -> t_concat Xs k = Ok X -> (forall x, In x Xs -> wf x) -> F X = Ok Y ->
      (forall Zs, t_concat Zs k = Ok X -> (forall x, In x Zs -> wf x /\ count_at k x <> 0) -> exists Ys, Forall2 (fun x y => F x = Ok y) Zs Ys /\ t_concat Ys k' = Ok Y) ->
      exists Ys, Forall2 (fun x y => F x = Ok y) Xs Ys /\ t_concat Ys k' = Ok Y.
    Proof.
      intros NONE HX HW HY SOME. destruct (concat_shapes _ _ _ HX) as (Hne & s & Hk & Hsh).
      destruct (concat_shape _ _ _ s HX Hk Hsh) as [SX WX].
      assert (EM : forall x, In x Xs -> count_at k x = 0 -> exists y, F x = Ok y /\ emptied k' Y y).
      { intros x Hx Cx. apply NONE. split; [exact WX|]. split; [apply HW, Hx|]. exists s, (total k Xs). split; [exact Hk|]. split; [exact SX|]. rewrite <- Cx. apply Hsh, Hx. }
      destruct (filter full Xs) as [|z0 Zl] eqn:Ef.
      - assert (All : forall x, In x Xs -> count_at k x = 0).
        { intros x Hx. apply full_false. destruct (negb (count_at k x =? 0)) eqn:E; [|reflexivity]. exfalso.
          assert (K : In x (filter full Xs)) by (apply filter_In; auto). rewrite Ef in K. destruct K. }
        assert (T0 : total k Xs = 0).
        { clear - All. induction Xs as [|t l IH]; [reflexivity|]. cbn [map list_sum fold_right] in *. rewrite (All t (or_introl eq_refl)). cbn. apply IH. intros; apply All; now right. }
        rewrite T0 in SX.
        assert (Same : forall x, In x Xs -> x = X).
        { intros x Hx. apply (empty_same x X k s); auto. rewrite <- (All x Hx). apply Hsh, Hx. }
        exists (map (fun _ => Y) Xs). split.
        + clear - Same HY. induction Xs as [|t l IH]; cbn [map]; constructor; [rewrite (Same t (or_introl eq_refl)); exact HY|apply IH; intros; apply Same; now right].
        + destruct Xs as [|t0 l]; [contradiction|]. destruct (EM t0 (or_introl eq_refl) (All t0 (or_introl eq_refl))) as (y & Ey & Emp).
          rewrite (Same t0 (or_introl eq_refl)), HY in Ey. injection Ey as <-. destruct Emp as (WY & _ & s' & n' & Hk' & _ & SY).
          apply (concat_empties _ k' Y s'); auto; [discriminate|]. intros t Ht. apply in_map_iff in Ht as (x & <- & _). reflexivity.
      - assert (NZ : filter full Xs <> []) by (rewrite Ef; discriminate). clear Ef z0 Zl.
        assert (TX : thin (fun t => count_at k t = 0) Xs (filter full Xs)) by (apply thin_filter; intros b; apply full_false).
        destruct (SOME (filter full Xs)) as (Ys1 & F1 & C1).
        { rewrite <- (concat_thin k s Xs _ TX NZ Hk Hsh). exact HX. }
        { intros x Hx. apply filter_In in Hx as [Hx Hf]. split; [apply HW, Hx|apply full_true, Hf]. }
        destruct (thin_more full (fun x y => F x = Ok y) (emptied k' Y) Xs Ys1 F1) as (Ys & FY & TY).
        { intros x Hx Hf. apply EM; [exact Hx|apply full_false, Hf]. }
        exists Ys. split; [exact FY|]. destruct (concat_shapes _ _ _ C1) as (N1 & s1 & Hk1 & Hsh1). destruct (concat_shape _ _ _ s1 C1 Hk1 Hsh1) as [SY _].
        assert (EQ : forall y, emptied k' Y y -> shp y = ins k' s1 0 /\ count_at k' y = 0).
        { intros y Hy. pose proof (emptied_shape Y y s1 _ Hy Hk1 SY) as E. split; [exact E|]. apply (count_ins k' s1); auto. }
        rewrite (concat_thin k' s1 Ys Ys1); auto.
        + clear - TY EQ. induction TY; [constructor|now constructor|]. apply thin_drop; [apply EQ; assumption|assumption].
        + intros t Ht. destruct (thin_or _ _ _ t TY Ht) as [H|H]; [apply Hsh1, H|]. destruct (EQ t H) as [E1 E2]. rewrite E2. exact E1.
    Qed.

    Lemma empties_up Xs Ys Y : (forall x y x0, length (shp x) = length (shp X) -> F x = Ok y -> emptied k x x0 -> exists y0, F x0 = Ok y0 /\ emptied k' y y0) -> t_concat Xs k = Ok X -> (forall x, In x Xs -> wf x) ->
      (forall Zs Vs, t_concat Zs k = Ok X -> (forall x, In x Zs -> wf x /\ count_at k x <> 0) -> Forall2 (fun x y => F x = Ok y) Zs Vs -> t_concat Vs k' = Ok Y -> F X = Ok Y) ->
      Forall2 (fun x y => F x = Ok y) Xs Ys -> t_concat Ys k' = Ok Y -> F X = Ok Y.
    Proof.
      intros NONE HX HW SOME FY CY. destruct (concat_shapes _ _ _ HX) as (Hne & s & Hk & Hsh).
      destruct (concat_shape _ _ _ s HX Hk Hsh) as [SX WX]. destruct (concat_shapes _ _ _ CY) as (Hne' & s' & Hk' & Hsh').
      assert (LX : forall x, In x Xs -> length (shp x) = length (shp X)) by (intros x Hx; rewrite SX, (Hsh x Hx), !ins_length by exact Hk; reflexivity).
      assert (EM : forall x y x0 y0, In x Xs -> In x0 Xs -> count_at k x0 = 0 -> F x = Ok y -> F x0 = Ok y0 -> emptied k' y y0).
      { intros x y x0 y0 Hx Hx0 C0 Ey Ey0. destruct (NONE x y x0 (LX x Hx) Ey) as (y1 & E1 & Emp).
        - split; [apply HW, Hx|]. split; [apply HW, Hx0|]. exists s, (count_at k x). split; [exact Hk|]. split; [apply Hsh, Hx|]. rewrite <- C0. apply Hsh, Hx0.
        - congruence. }
      destruct (filter full Xs) as [|z0 Zl] eqn:Ef.
      - assert (All : forall x, In x Xs -> count_at k x = 0).
        { intros x Hx. apply full_false. destruct (negb (count_at k x =? 0)) eqn:E; [|reflexivity]. exfalso.
          assert (K : In x (filter full Xs)) by (apply filter_In; auto). rewrite Ef in K. destruct K. }
        assert (T0 : total k Xs = 0).
        { clear - All. induction Xs as [|t l IH]; [reflexivity|]. cbn [map list_sum fold_right] in *. rewrite (All t (or_introl eq_refl)). cbn. apply IH. intros; apply All; now right. }
        rewrite T0 in SX.
        assert (Same : forall x, In x Xs -> x = X).
        { intros x Hx. apply (empty_same x X k s); auto. rewrite <- (All x Hx). apply Hsh, Hx. }
        inversion FY as [|x0 y0 Xl Yl E0 FYl]; subst; [contradiction|].
        assert (H0 : In x0 (x0 :: Xl)) by (now left). pose proof (EM x0 y0 x0 y0 H0 H0 (All x0 H0) E0 E0) as (W0 & _ & s0 & n0 & Hk0 & _ & S0).
        rewrite (Same x0 H0) in E0. rewrite E0. f_equal.
        assert (SameY : forall y, In y (y0 :: Yl) -> y = y0).
        { intros y Hy. destruct (In_nth_error _ _ Hy) as [m Em].
          assert (FYf : Forall2 (fun y x : tensor A => F x = Ok y) (y0 :: Yl) (x0 :: Xl)) by (clear - FY; induction FY; constructor; auto).
          destruct (forall2_nth _ _ _ m y FYf Em) as (t & Et & Ft). rewrite (Same t (nth_error_In _ _ Et)) in Ft. congruence. }
        rewrite (concat_empties (y0 :: Yl) k' y0 s0) in CY; auto; congruence.
      - assert (NZ : filter full Xs <> []) by (rewrite Ef; discriminate).
        assert (Hz : In z0 (filter full Xs)) by (rewrite Ef; now left). clear Ef Zl. apply filter_In in Hz as [Hz _].
        assert (TX : thin (fun t => count_at k t = 0) Xs (filter full Xs)) by (apply thin_filter; intros b; apply full_false).
        destruct (In_nth_error _ _ Hz) as [mz Emz]. destruct (forall2_nth _ _ _ mz z0 FY Emz) as (yz & Eyz & Fz).
        destruct (thin_less full (fun x y => F x = Ok y) (fun y => count_at k' y = 0) Xs Ys FY) as (Ys1 & F1 & TY).
        { intros x y Hx Hf Ey. destruct (EM z0 yz x y Hz Hx (full_false x Hf) Fz Ey) as (_ & _ & s0 & n0 & Hk0 & _ & S0). apply (count_ins k' s0); auto. }
        apply (SOME (filter full Xs) Ys1); [| |exact F1|].
        + rewrite <- (concat_thin k s Xs _ TX NZ Hk Hsh). exact HX.
        + intros x Hx. apply filter_In in Hx as [Hx Hf]. split; [apply HW, Hx|apply full_true, Hf].
        + rewrite <- (concat_thin k' s' Ys Ys1 TY); auto. intros ->. inversion F1 as [E|]; subst. congruence.
    Qed.
  End Abstract.

  Lemma op_chunks_all (r : runtime A) (Hok : runtime_ok r) b (p p' : pystr) (L1 L2 R1 R2 : expr) (sizes : list (pystr * Z)) f e Xs X Y :
    b <> ell_name -> reads (rt_unicode r) p (L1 ++ L2) (R1 ++ R2) ->
    reads (rt_unicode r) p' (L1 ++ Atom (AName b) :: L2) (R1 ++ Atom (AName b) :: R2) ->
    ~ In b (map fst sizes) -> NoDup (map fst sizes) -> operation r p sizes f ->
    rank_fits (L1 ++ Atom (AName b) :: L2) (length (shp X)) e ->
    t_concat Xs (length (left_groups e L1)) = Ok X -> (forall x, In x Xs -> wf x) ->
    (f (One X) p' = Ok Y <->
     exists Ys, Forall2 (fun x y => f (One x) p' = Ok y) Xs Ys /\ t_concat Ys (length (right_groups e (L1 ++ L2) R1)) = Ok Y).
  Proof.
    intros Hb Hp Hp' Hs Hn Hop Hr HX HXs.
    assert (NONE : forall x y x0, length (shp x) = length (shp X) -> f (One x) p' = Ok y -> emptied (length (left_groups e L1)) x x0 ->
      exists y0, f (One x0) p' = Ok y0 /\ emptied (length (right_groups e (L1 ++ L2) R1)) y y0).
    { intros x y x0 El Ey Em. rewrite <- El in Hr. exact (op_empty r Hok b p p' L1 L2 R1 R2 sizes f e x y x0 Hb Hp Hp' Hs Hn Hop Hr Em Ey). }
    split.
    - intros HY. apply (empties_down (fun x => f (One x) p') _ _ X Xs Y (fun x0 => NONE X Y x0 eq_refl HY) HX HXs HY). intros Zs HZ HZs.
      apply (op_chunks r Hok b p p' L1 L2 R1 R2 sizes f e Zs X Y); auto.
    - intros (Ys & FY & CY). apply (empties_up (fun x => f (One x) p') _ _ X Xs Ys Y NONE HX HXs); auto. intros Zs Vs HZ HZs FV CV.
      apply (op_chunks r Hok b p p' L1 L2 R1 R2 sizes f e Zs X Y); eauto.
  Qed.
  Lemma layer_chunks_all (r : runtime A) (Hok : runtime_ok r) b (p p' : pystr) (L1 L2 R1 R2 : expr) (sizes : list (pystr * Z)) f e (M : layer (tensor A)) Xs X Y :
    b <> ell_name -> reads (rt_unicode r) p (L1 ++ L2) (R1 ++ R2) ->
    reads (rt_unicode r) p' (L1 ++ Atom (AName b) :: L2) (R1 ++ Atom (AName b) :: R2) ->
    ~ In b (map fst sizes) -> NoDup (map fst sizes) -> operation r p sizes f ->
    like_function r M p' (fun x => f (One x) p') ->
    rank_fits (L1 ++ Atom (AName b) :: L2) (length (shp X)) e -> e < 8 ->
    t_concat Xs (length (left_groups e L1)) = Ok X -> (forall x, In x Xs -> wf x) ->
    (call_layer r M X = Ok Y <->
     exists Ys, Forall2 (fun x y => call_layer r M x = Ok y) Xs Ys /\ t_concat Ys (length (right_groups e (L1 ++ L2) R1)) = Ok Y).
  Proof.
    intros Hb Hp Hp' Hs Hn Hop HM Hr He HX HXs.
    assert (NONE : forall x y x0, length (shp x) = length (shp X) -> call_layer r M x = Ok y -> emptied (length (left_groups e L1)) x x0 ->
      exists y0, call_layer r M x0 = Ok y0 /\ emptied (length (right_groups e (L1 ++ L2) R1)) y y0).
    { intros x y x0 El Ey Em. rewrite <- El in Hr. exact (layer_empty r Hok b p p' L1 L2 R1 R2 sizes f e M x y x0 Hb Hp Hp' Hs Hn Hop HM Hr He Em Ey). }
    split.
    - intros HY. apply (empties_down (call_layer r M) _ _ X Xs Y (fun x0 => NONE X Y x0 eq_refl HY) HX HXs HY). intros Zs HZ HZs.
      apply (layer_chunks r Hok b p p' L1 L2 R1 R2 sizes f e M Zs X Y); auto.
    - intros (Ys & FY & CY). apply (empties_up (call_layer r M) _ _ X Xs Ys Y NONE HX HXs); auto. intros Zs Vs HZ HZs FV CV.
      apply (layer_chunks r Hok b p p' L1 L2 R1 R2 sizes f e M Zs X Y); eauto.
  Qed.
End Thin.
