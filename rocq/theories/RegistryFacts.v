(** * get_backend: facts *)
From Verif Require Import Py ListFacts ParseFacts Registry SpecRegistry.

Lemma ctree_ind' (P : ctree -> Prop) : (forall c s, Forall P s -> P (Node c s)) -> forall t, P t.
Proof.
  intros H. fix IH 1. intros [c s]. apply H. induction s as [|t s IHs]; constructor; [apply IH|exact IHs].
Qed.
Lemma collect_all fuel : forall ts acc, list_sum (map tree_size ts) <= fuel -> Permutation (collect fuel ts acc) (acc ++ flat_map classes ts).
Proof.
  induction fuel as [|fuel IH]; intros ts acc H.
  - destruct ts as [|[c s] ts]; [cbn; rewrite app_nil_r; apply Permutation_refl|cbn in H; lia].
  - cbn [collect]. destruct (rev ts) as [|t rest] eqn:E.
    + assert (X : ts = []) by (rewrite <- (rev_involutive ts), E; reflexivity). subst. cbn. rewrite app_nil_r. apply Permutation_refl.
    + assert (X : ts = rev rest ++ [t]) by (rewrite <- (rev_involutive ts), E; reflexivity). subst ts. destruct t as [c s]. cbn [node_subs node_class].
      rewrite IH.
      * rewrite !flat_map_app. cbn [flat_map classes]. rewrite app_nil_r, <- app_assoc. apply Permutation_app_head.
        cbn. apply (Permutation_middle (flat_map classes (rev rest)) (flat_map classes s) c).
      * rewrite map_app, list_sum_app in *. cbn in H. lia.
Qed.
Lemma all_subclasses_perm ts : Permutation (all_subclasses ts) (flat_map classes ts).
Proof. apply (collect_all _ ts []). lia. Qed.

Section Facts.
  Context {T : Type} (type_of : T -> nat) (accepts : bclass -> T -> bool)
    (build : nat -> bclass -> list pystr -> option exn * list pystr).
  Notation get_backend := (get_backend type_of accepts build).
  Notation try_classes := (try_classes type_of accepts build).
  Notation run := (run type_of accepts build).

  Record good (st : registry) : Prop := {
    g_keys : NoDup (map fst (loaded st));
    g_fw : forall fw b, In (fw, b) (loaded st) -> fw = c_framework (snd b);
    g_log : successes (attempts st) = map snd (loaded st);
    g_ids : NoDup (map (fun fb => fst (snd fb)) (loaded st));
    g_clock : forall fb, In fb (loaded st) -> fst (snd fb) < clock st;
    g_imported : forall a, In a (attempts st) -> In (c_framework (at_class a)) (at_modules a);
    g_result : forall a b, In a (attempts st) -> at_result a = Some b -> snd b = at_class a;
    g_types : NoDup (map fst (by_type st));
    g_known : forall t b, In (t, b) (by_type st) -> In b (map snd (loaded st));
    g_accept : forall t b, In (t, b) (by_type st) -> exists y, type_of y = t /\ accepts (snd b) y = true }.

  Lemma find_key_In {K V} (eqb : K -> K -> bool) (Heq : forall a b, eqb a b = true <-> a = b) (d : list (K * V)) k v :
    NoDup (map fst d) -> (find_key eqb k d = Some v <-> In (k, v) d).
  Proof.
    induction d as [|[k' v'] d IH]; cbn; intros Hn; [split; [discriminate|intros []]|]. inversion Hn as [|? ? H1 H2]; subst.
    destruct (eqb k k') eqn:E.
    - apply Heq in E. subst. split; [intros H; injection H as ->; left; reflexivity|]. intros [H|H]; [congruence|].
      exfalso. apply H1. apply (in_map fst) in H. exact H.
    - rewrite IH by assumption. split; [right; assumption|]. intros [H|H]; [|exact H]. injection H as -> ->.
      rewrite (proj2 (Heq k k) eq_refl) in E. discriminate.
  Qed.
  Lemma find_key_None {K V} (eqb : K -> K -> bool) (Heq : forall a b, eqb a b = true <-> a = b) (d : list (K * V)) k :
    find_key eqb k d = None <-> ~ In k (map fst d).
  Proof.
    induction d as [|[k' v'] d IH]; cbn; [tauto|]. destruct (eqb k k') eqn:E.
    - apply Heq in E. subst. split; [discriminate|]. intros H. exfalso. auto.
    - rewrite IH. assert (k' <> k) by (intros ->; rewrite (proj2 (Heq k k) eq_refl) in E; discriminate). tauto.
  Qed.

  Lemma good_fresh : good fresh_registry.
  Proof. split; cbn; try constructor; intros; contradiction. Qed.

  Lemma good_modules ms st : good st -> good (step type_of accepts build st (Modules ms)).
  Proof. intros [H1 H2 H3 H4 H5 H6 H7 H8 H9 H10]. split; assumption. Qed.

  Lemma good_set_type st x b : good st -> ~ In (type_of x) (map fst (by_type st)) -> In b (map snd (loaded st)) -> accepts (snd b) x = true ->
    good (set_type (type_of x) b st).
  Proof.
    intros [H1 H2 H3 H4 H5 H6 H7 H8 H9 H10] Hn Hb Ha. split; cbn; try assumption.
    - rewrite map_app. cbn. apply NoDup_app_iff. split; [assumption|]. split; [constructor; [intros []|constructor]|].
      intros y Hy [<-|[]]. exact (Hn Hy).
    - intros t b' Hi. apply in_app_or in Hi as [Hi|[Hi|[]]]; [eauto|]. injection Hi as <- <-. exact Hb.
    - intros t b' Hi. apply in_app_or in Hi as [Hi|[Hi|[]]]; [eauto|]. injection Hi as <- <-. eauto.
  Qed.

  (** constructing and recording *)
  Lemma construct_spec c st : exists f ms, build (clock st) c (modules st) = (f, ms) /\
    construct build c st = ({| loaded := loaded st; by_type := by_type st; modules := ms; clock := S (clock st);
        attempts := attempts st ++ [{| at_class := c; at_modules := modules st; at_result := match f with None => Some (clock st, c) | Some _ => None end |}] |},
     match f with None => Ok (clock st, c) | Some e => Err e end).
  Proof. unfold construct. destruct (build (clock st) c (modules st)) as [f ms]. eauto. Qed.

  Lemma successes_app l a : successes (l ++ [a]) = successes l ++ match at_result a with Some b => [b] | None => [] end.
  Proof. unfold successes. rewrite flat_map_app. cbn. rewrite app_nil_r. reflexivity. Qed.

  Lemma good_failed c st st' e : good st -> In (c_framework c) (modules st) -> construct build c st = (st', Err e) -> good st' /\ by_type st' = by_type st /\ loaded st' = loaded st.
  Proof.
    intros [H1 H2 H3 H4 H5 H6 H7 H8 H9 H10] Hi E. destruct (construct_spec c st) as (f & ms & _ & E'). rewrite E' in E.
    destruct f as [e'|]; [|discriminate]. injection E as <- _. split; [|split; reflexivity]. split; cbn; try assumption.
    - rewrite successes_app. cbn. rewrite app_nil_r. exact H3.
    - intros fb Hf. specialize (H5 fb Hf). lia.
    - intros a Ha. apply in_app_or in Ha as [Ha|[<-|[]]]; [auto|]. exact Hi.
    - intros a b Ha Hb. apply in_app_or in Ha as [Ha|[<-|[]]]; [eauto|]. discriminate.
  Qed.
  Lemma good_constructed c st st' b : good st -> In (c_framework c) (modules st) -> ~ In (c_framework c) (map fst (loaded st)) ->
    construct build c st = (st', Ok b) ->
    good (set_loaded (c_framework c) b st') /\ by_type st' = by_type st /\ loaded st' = loaded st /\ snd b = c.
  Proof.
    intros [H1 H2 H3 H4 H5 H6 H7 H8 H9 H10] Hi Hk E. destruct (construct_spec c st) as (f & ms & _ & E'). rewrite E' in E.
    destruct f as [e'|]; [discriminate|]. injection E as <- <-. split; [|repeat split]. split; cbn; try assumption.
    - rewrite map_app. cbn. apply NoDup_app_iff. split; [assumption|]. split; [constructor; [intros []|constructor]|].
      intros y Hy [<-|[]]. exact (Hk Hy).
    - intros fw b Hb. apply in_app_or in Hb as [Hb|[Hb|[]]]; [eauto|]. injection Hb as <- <-. reflexivity.
    - rewrite successes_app, map_app, H3. reflexivity.
    - rewrite map_app. cbn. apply NoDup_app_iff. split; [assumption|]. split; [constructor; [intros []|constructor]|].
      intros y Hy [<-|[]]. apply in_map_iff in Hy as (fb & E1 & Hf). specialize (H5 fb Hf). lia.
    - intros fb Hf. apply in_app_or in Hf as [Hf|[<-|[]]]; [specialize (H5 fb Hf); lia|]. cbn. lia.
    - intros a Ha. apply in_app_or in Ha as [Ha|[<-|[]]]; [auto|]. exact Hi.
    - intros a b Ha Hb. apply in_app_or in Ha as [Ha|[<-|[]]]; [eauto|]. cbn in Hb. injection Hb as <-. reflexivity.
    - intros t b Hb. rewrite map_app. apply in_or_app. left. eauto.
  Qed.

  Lemma str_mem_In' x l : str_mem x l = true <-> In x l.
  Proof. unfold str_mem. rewrite existsb_exists. split; [intros (y & H & E); apply str_eqb_eq in E; subst; exact H|]. intros H. exists x. split; [exact H|apply str_eqb_eq; reflexivity]. Qed.

  (** the second loop *)
  Lemma try_spec cs x : forall st st' r, good st -> ~ In (type_of x) (map fst (by_type st)) -> try_classes cs x st = (st', r) ->
    good st' /\
    match r with
    | Ok b => by_type st' = by_type st ++ [(type_of x, b)] /\ accepts (snd b) x = true /\ In b (map snd (loaded st'))
    | Err _ => by_type st' = by_type st
    end.
  Proof.
    induction cs as [|c cs IH]; intros st st' r Hg Hn E; cbn [Registry.try_classes] in E.
    - injection E as <- <-. auto.
    - destruct (find_key str_eqb (c_framework c) (loaded st)) as [b|] eqn:Ek; [eapply IH; eauto|].
      destruct (str_mem (c_framework c) (modules st)) eqn:Em; [|eapply IH; eauto]. apply str_mem_In' in Em.
      apply (find_key_None _ str_eqb_eq) in Ek. destruct (construct build c st) as [st1 [b|e]] eqn:Ec.
      + destruct (good_constructed c st st1 b Hg Em Ek Ec) as (G1 & T1 & L1 & S1). cbn beta iota zeta in E.
        destruct (accepts (snd b) x) eqn:Ea.
        * injection E as <- <-. split; [|split; [|split; [exact Ea|]]].
          -- apply good_set_type; [exact G1|cbn; rewrite T1; exact Hn| |exact Ea]. cbn. rewrite map_app. apply in_or_app. right. left. reflexivity.
          -- cbn. rewrite T1. reflexivity.
          -- cbn. rewrite map_app. apply in_or_app. right. left. reflexivity.
        * apply IH in E; [|exact G1|cbn; rewrite T1; exact Hn]. cbn in E. rewrite T1 in E. exact E.
      + injection E as <- <-. destruct (good_failed c st st1 e Hg Em Ec) as (G1 & T1 & _). auto.
  Qed.

  Lemma get_spec roots x st st' r : good st -> get_backend roots x st = (st', r) ->
    good st' /\
    match r with
    | Ok b => In (type_of x, b) (by_type st') /\ incl (by_type st) (by_type st')
    | Err _ => by_type st' = by_type st /\ ~ In (type_of x) (map fst (by_type st))
    end.
  Proof.
    intros Hg E. unfold Registry.get_backend in E. assert (Hk := find_key_In Nat.eqb Nat.eqb_eq (by_type st) (type_of x)).
    destruct (find_key Nat.eqb (type_of x) (by_type st)) as [b|] eqn:Ek.
    - injection E as <- <-. split; [exact Hg|]. split; [apply Hk; [apply Hg|reflexivity]|apply incl_refl].
    - apply (find_key_None _ Nat.eqb_eq) in Ek. destruct (find _ (loaded st)) as [[fw b]|] eqn:Ef.
      + apply find_some in Ef as [F1 F2]. injection E as <- <-. split.
        * apply good_set_type; auto. apply (in_map snd) in F1. exact F1.
        * cbn. split; [apply in_or_app; right; left; reflexivity|apply incl_appl, incl_refl].
      + apply try_spec in E as [G E]; [|exact Hg|exact Ek]. split; [exact G|]. destruct r as [b|e]; [|auto].
        destruct E as (-> & _). split; [apply in_or_app; right; left; reflexivity|apply incl_appl, incl_refl].
  Qed.

  Lemma good_step st e : good st -> good (step type_of accepts build st e).
  Proof.
    intros Hg. destruct e as [ms|roots x]; [apply good_modules, Hg|]. cbn. destruct (get_backend roots x st) as [st' r] eqn:E.
    apply get_spec in E as [G _]; assumption.
  Qed.
  Lemma good_run es : forall st, good st -> good (run es st).
  Proof. induction es as [|e es IH]; intros st H; [exact H|]. cbn. apply IH, good_step, H. Qed.

  Lemma step_types st e : good st -> incl (by_type st) (by_type (step type_of accepts build st e)).
  Proof.
    intros Hg. destruct e as [ms|roots x]; [apply incl_refl|]. cbn. destruct (get_backend roots x st) as [st' r] eqn:E.
    apply get_spec in E as [_ E]; [|exact Hg]. cbn. destruct r as [b|e]; [apply E|]. destruct E as (-> & _). apply incl_refl.
  Qed.
  Lemma run_types es : forall st, good st -> incl (by_type st) (by_type (run es st)).
  Proof.
    induction es as [|e es IH]; intros st H; [apply incl_refl|]. cbn. eapply incl_tran; [apply step_types; exact H|]. apply IH, good_step, H.
  Qed.

  (** ** the statements *)
  Notation reachable := (reachable type_of accepts build).
  Lemma reachable_good st : reachable st -> good st.
  Proof. intros (es & ->). apply good_run, good_fresh. Qed.

  Lemma accepts_some st roots x st' b : reachable st -> get_backend roots x st = (st', Ok b) ->
    exists y, type_of y = type_of x /\ accepts (snd b) y = true.
  Proof. intros Hr E. apply get_spec in E as [G [E _]]; [|apply reachable_good, Hr]. eapply g_accept; eauto. Qed.

  Lemma accepts_itself st roots x st' b : (forall c y z, type_of y = type_of z -> accepts c y = accepts c z) ->
    reachable st -> get_backend roots x st = (st', Ok b) -> accepts (snd b) x = true.
  Proof.
    intros H Hr E. destruct (accepts_some st roots x st' b Hr E) as (y & E1 & E2). rewrite <- (H (snd b) y x E1). exact E2.
  Qed.

  Lemma sticky st roots x st' b es roots' y : reachable st -> get_backend roots x st = (st', Ok b) -> type_of y = type_of x ->
    get_backend roots' y (run es st') = (run es st', Ok b).
  Proof.
    intros Hr E Ey. assert (G0 := reachable_good _ Hr). apply get_spec in E as [G [E _]]; [|exact G0].
    assert (G1 := good_run es st' G). assert (I := run_types es st' G _ E). unfold Registry.get_backend. rewrite Ey.
    rewrite (proj2 (find_key_In Nat.eqb Nat.eqb_eq _ _ _ (g_types _ G1)) I). reflexivity.
  Qed.

  Lemma imported st a : reachable st -> In a (attempts st) -> In (c_framework (at_class a)) (at_modules a).
  Proof. intros Hr. apply g_imported, reachable_good, Hr. Qed.

  Lemma once st : reachable st -> NoDup (map (fun b => c_framework (snd b)) (successes (attempts st))) /\ NoDup (map fst (successes (attempts st))).
  Proof.
    intros Hr. assert (G := reachable_good _ Hr). rewrite (g_log _ G), !map_map. split; [|apply G].
    rewrite (map_ext_in _ fst); [apply G|]. intros [fw b] Hb. cbn. symmetry. eapply g_fw; eauto.
  Qed.

  (** a backend that is there is preferred: nothing is constructed *)
  Lemma prefers_loaded st roots x st' r : (exists fb, In fb (loaded st) /\ accepts (snd (snd fb)) x = true) \/ In (type_of x) (map fst (by_type st)) ->
    get_backend roots x st = (st', r) -> attempts st' = attempts st /\ exists b, r = Ok b.
  Proof.
    intros H E. unfold Registry.get_backend in E. destruct (find_key Nat.eqb (type_of x) (by_type st)) as [b|] eqn:Ek.
    - injection E as <- <-. eauto.
    - apply (find_key_None _ Nat.eqb_eq) in Ek. destruct H as [(fb & H1 & H2)|H]; [|contradiction].
      destruct (find _ (loaded st)) as [[fw b]|] eqn:Ef; [injection E as <- <-; cbn; eauto|].
      exfalso. assert (X := find_none _ _ Ef fb H1). cbn in X. congruence.
  Qed.

  (** when nothing is found *)
  Notation honest := (honest build).

  Lemma try_mono cs x : honest -> forall st st' r, try_classes cs x st = (st', r) -> incl (modules st) (modules st') /\ incl (loaded st) (loaded st').
  Proof.
    intros Hh. induction cs as [|c cs IH]; intros st st' r E; cbn [Registry.try_classes] in E.
    - injection E as <- _. split; apply incl_refl.
    - destruct (find_key str_eqb (c_framework c) (loaded st)); [eapply IH; eauto|].
      destruct (str_mem (c_framework c) (modules st)); [|eapply IH; eauto].
      destruct (construct_spec c st) as (f & ms & Eb & Ec). rewrite Ec in E. destruct (Hh (clock st) c (modules st)) as [H1 H2].
      rewrite Eb in H1, H2. cbn in H1, H2. subst f. cbn beta iota zeta in E. destruct (accepts _ x).
      + injection E as <- _. cbn. split; [exact H2|apply incl_appl, incl_refl].
      + apply IH in E as [E1 E2]. cbn in E1, E2. split; [eapply incl_tran; eauto|]. eapply incl_tran; [|exact E2]. apply incl_appl, incl_refl.
  Qed.

  Lemma try_error cs x : honest -> forall st st' e, try_classes cs x st = (st', Err e) ->
    (forall fb, In fb (loaded st) -> accepts (snd (snd fb)) x = false) ->
    e = RuntimeError /\ (forall fb, In fb (loaded st') -> accepts (snd (snd fb)) x = false) /\
    (forall c, In c cs -> In (c_framework c) (modules st) -> In (c_framework c) (map fst (loaded st'))).
  Proof.
    intros Hh. induction cs as [|c cs IH]; intros st st' e E Ha; cbn [Registry.try_classes] in E.
    - injection E as <- <-. split; [reflexivity|]. split; [exact Ha|intros c []].
    - destruct (find_key str_eqb (c_framework c) (loaded st)) as [b|] eqn:Ek.
      { assert (M := proj2 (try_mono cs x Hh _ _ _ E)). apply IH in E as (E1 & E2 & E3); [|exact Ha]. split; [exact E1|]. split; [exact E2|].
        intros c' [<-|Hc] Hm; [|apply E3; assumption]. destruct (in_dec str_eq_dec (c_framework c) (map fst (loaded st))) as [Hi|Hi].
        - apply in_map_iff in Hi as (fb & <- & Hf). apply in_map, M, Hf.
        - apply (find_key_None _ str_eqb_eq) in Hi. congruence. }
      destruct (str_mem (c_framework c) (modules st)) eqn:Em.
      + destruct (construct_spec c st) as (f & ms & Eb & Ec). rewrite Ec in E. destruct (Hh (clock st) c (modules st)) as [H1 H2].
        rewrite Eb in H1, H2. cbn in H1, H2. subst f. cbn beta iota zeta in E. destruct (accepts _ x) eqn:Ea; [discriminate|].
        assert (M := proj2 (try_mono cs x Hh _ _ _ E)). cbn in M.
        apply IH in E as (E1 & E2 & E3).
        * split; [exact E1|]. split; [exact E2|]. intros c' [<-|Hc] Hm.
          -- apply (in_map fst _ (c_framework c, (clock st, c))). apply M, in_or_app. right. left. reflexivity.
          -- apply E3; [exact Hc|]. cbn. apply H2, Hm.
        * intros fb Hf. cbn in Hf. apply in_app_or in Hf as [Hf|[<-|[]]]; [apply Ha, Hf|exact Ea].
      + apply IH in E as (E1 & E2 & E3); [|exact Ha]. split; [exact E1|]. split; [exact E2|].
        intros c' [<-|Hc] Hm; [|apply E3; assumption]. apply str_mem_In' in Hm. congruence.
  Qed.

  Lemma get_error roots x st st' e : honest -> get_backend roots x st = (st', Err e) ->
    e = RuntimeError /\ forall c, In c (flat_map classes roots) -> In (c_framework c) (modules st) ->
      exists b, In (c_framework c, b) (loaded st') /\ accepts (snd b) x = false.
  Proof.
    intros Hh E. unfold Registry.get_backend in E. destruct (find_key Nat.eqb (type_of x) (by_type st)); [discriminate|].
    destruct (find _ (loaded st)) as [[fw b]|] eqn:Ef; [discriminate|].
    apply try_error in E as (E1 & E2 & E3); [|exact Hh|intros fb Hf; exact (find_none _ _ Ef fb Hf)]. split; [exact E1|].
    intros c Hc Hm. assert (X : In (c_framework c) (map fst (loaded st'))).
    { apply E3; [|exact Hm]. apply (Permutation_in c (Permutation_sym (all_subclasses_perm roots))). exact Hc. }
    apply in_map_iff in X as ([fw b] & E4 & Hf). cbn in E4. subst fw. exists b. split; [exact Hf|]. apply (E2 _ Hf).
  Qed.

  (** the right one is found *)
  Section Found.
    Context (C : list bclass).
    Definition only_of (st : registry) : Prop := forall a, In a (attempts st) -> In (at_class a) C.
    Lemma try_only cs x : incl cs C -> forall st, only_of st -> only_of (fst (try_classes cs x st)).
    Proof.
      induction cs as [|c cs IH]; intros Hc st Ho; [exact Ho|]. cbn [Registry.try_classes].
      assert (Hcs : incl cs C) by (intros a Ha; apply Hc; right; exact Ha).
      destruct (find_key str_eqb (c_framework c) (loaded st)); [apply IH; assumption|].
      destruct (str_mem (c_framework c) (modules st)); [|apply IH; assumption].
      destruct (construct_spec c st) as (f & ms & _ & ->).
      assert (Hadd : forall a, In a (attempts st ++ [{| at_class := c; at_modules := modules st; at_result := match f with None => Some (clock st, c) | Some _ => None end |}]) -> In (at_class a) C).
      { intros a Ha. apply in_app_or in Ha as [Ha|[<-|[]]]; [apply Ho, Ha|]. apply Hc. left. reflexivity. }
      destruct f as [e|]; [exact Hadd|]. cbn [snd]. destruct (accepts c x); [exact Hadd|]. apply IH; [exact Hcs|exact Hadd].
    Qed.
    Lemma get_only roots x st : incl (flat_map classes roots) C -> only_of st -> only_of (fst (get_backend roots x st)).
    Proof.
      intros Hc Ho. unfold Registry.get_backend. destruct (find_key _ _ _); [exact Ho|]. destruct (find _ _) as [[fw b]|]; [exact Ho|].
      apply try_only; [|exact Ho]. intros c Hi. apply Hc. exact (Permutation_in c (all_subclasses_perm roots) Hi).
    Qed.
    Lemma run_only es : (forall roots y, In (Get roots y) es -> incl (flat_map classes roots) C) -> forall st, only_of st -> only_of (run es st).
    Proof.
      induction es as [|e es IH]; intros H st Ho; [exact Ho|]. cbn. apply IH; [intros roots y Hi; apply (H roots y); right; exact Hi|].
      destruct e as [ms|roots y]; [exact Ho|]. apply get_only; [apply (H roots y); left; reflexivity|exact Ho].
    Qed.
    Lemma loaded_only st fw b : good st -> only_of st -> In (fw, b) (loaded st) -> In (snd b) C /\ fw = c_framework (snd b).
    Proof.
      intros G Ho Hi. split; [|eapply g_fw; eauto]. apply (in_map snd) in Hi. cbn in Hi. rewrite <- (g_log _ G) in Hi.
      apply in_flat_map in Hi as (a & Ha & Hb). destruct (at_result a) as [b'|] eqn:E; [|destruct Hb]. destruct Hb as [<-|[]].
      rewrite (g_result _ G a b' Ha E). apply Ho, Ha.
    Qed.
  End Found.
  Lemma found roots es x c : (forall k y z, type_of y = type_of z -> accepts k y = accepts k z) -> honest ->
    (forall roots' y, In (Get roots' y) es -> roots' = roots) -> NoDup (map c_framework (flat_map classes roots)) ->
    In c (flat_map classes roots) -> accepts c x = true -> (forall c', In c' (flat_map classes roots) -> accepts c' x = true -> c' = c) ->
    In (c_framework c) (modules (run es fresh_registry)) ->
    exists n, snd (get_backend roots x (run es fresh_registry)) = Ok (n, c).
  Proof.
    intros Ht Hh He Hn Hc Ha Hu Hm. set (st := run es fresh_registry) in *.
    assert (Hr : reachable st) by (exists es; reflexivity). assert (G := reachable_good _ Hr).
    assert (Ho : only_of (flat_map classes roots) st).
    { apply run_only; [|intros a []]. intros roots' y Hi. rewrite (He _ _ Hi). apply incl_refl. }
    assert (Ho' := get_only (flat_map classes roots) roots x st (incl_refl _) Ho).
    destruct (get_backend roots x st) as [st' [b|e]] eqn:E; cbn [fst snd] in *.
    - assert (Ab := accepts_itself st roots x st' b Ht Hr E). pose proof (get_spec roots x st st' _ G E) as (G' & Hb & _).
      apply (g_known _ G') in Hb. apply in_map_iff in Hb as ([fw b'] & Eb & Hb). cbn in Eb. subst b'.
      destruct (loaded_only _ _ _ _ G' Ho' Hb) as [Hin _]. exists (fst b). rewrite <- (Hu _ Hin Ab). now destruct b.
    - exfalso. destruct (get_error roots x st st' e Hh E) as [_ H]. destruct (H c Hc Hm) as (b & Hb & Hf).
      pose proof (proj1 (get_spec roots x st st' _ G E)) as G'. destruct (loaded_only _ _ _ _ G' Ho' Hb) as [Hin Ef].
      assert (snd b = c); [|congruence]. clear - Hn Hc Hin Ef. induction (flat_map classes roots) as [|a l IH]; [destruct Hc|].
      cbn in Hn. inversion Hn as [|? ? N1 N2]; subst. destruct Hc as [->|Hc], Hin as [Hi|Hi]; auto.
      + exfalso. apply N1. rewrite Ef. apply in_map, Hi.
      + subst a. exfalso. apply N1. rewrite <- Ef. apply in_map, Hc.
  Qed.
End Facts.

Lemma ours c : In (c_name c, c_framework c)
    [(lit "NumpyBackend", lit "numpy"); (lit "JaxBackend", lit "jax"); (lit "TorchBackend", lit "torch"); (lit "CupyBackend", lit "cupy");
     (lit "TensorflowBackend", lit "tensorflow"); (lit "TFKerasBackend", lit "tensorflow.keras"); (lit "OneFlowBackend", lit "oneflow");
     (lit "PaddleBackend", lit "paddle"); (lit "TinygradBackend", lit "tinygrad"); (lit "PyTensorBackend", lit "pytensor")] ->
  In c (flat_map classes einops_backends).
Proof.
  assert (X : forall l, In (c_name c, c_framework c) (map (fun c => (c_name c, c_framework c)) l) -> In c l).
  { intros l H. apply in_map_iff in H as (d & E & Hd). destruct c, d. cbn in E. injection E as -> ->. exact Hd. }
  intros H. apply X. cbn [flat_map einops_backends backend_class classes map app c_name c_framework].
  repeat (destruct H as [<-|H]; [repeat (try (left; reflexivity); right)|]). destruct H.
Qed.
Lemma found_ours {T} (type_of : T -> nat) (accepts : bclass -> T -> bool) build es x c :
  let st := run type_of accepts build es fresh_registry in
  (forall c y z, type_of y = type_of z -> accepts c y = accepts c z) -> honest build ->
  (forall roots y, In (Get roots y) es -> roots = einops_backends) ->
  In (c_name c, c_framework c)
    [(lit "NumpyBackend", lit "numpy"); (lit "JaxBackend", lit "jax"); (lit "TorchBackend", lit "torch"); (lit "CupyBackend", lit "cupy");
     (lit "TensorflowBackend", lit "tensorflow"); (lit "TFKerasBackend", lit "tensorflow.keras"); (lit "OneFlowBackend", lit "oneflow");
     (lit "PaddleBackend", lit "paddle"); (lit "TinygradBackend", lit "tinygrad"); (lit "PyTensorBackend", lit "pytensor")] ->
  accepts c x = true -> (forall c', In c' (flat_map classes einops_backends) -> accepts c' x = true -> c' = c) ->
  In (c_framework c) (modules st) ->
  exists n, snd (get_backend type_of accepts build einops_backends x st) = Ok (n, c).
Proof.
  intros st Ht Hh He Hc. apply found; [exact Ht|exact Hh|exact He| |apply ours, Hc].
  cbn [flat_map einops_backends backend_class classes map app c_framework].
  repeat (constructor; [cbn [In]; intros X; repeat (destruct X as [X|X]; [vm_compute in X; discriminate X|]); exact X|]). constructor.
Qed.
