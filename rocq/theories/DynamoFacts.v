(** * Functions known to torch.compile: proofs *)
From Verif Require Import Py ListFacts Texts Registry Dynamo SpecDynamo.

Lemma mem_app s l m : str_mem s (l ++ m) = str_mem s l || str_mem s m.
Proof. unfold str_mem. apply existsb_app. Qed.
Lemma mem_with_others ms ms' : str_mem torch_specific (with_others ms ms') = str_mem torch_specific ms.
Proof.
  unfold with_others. rewrite mem_app. replace (str_mem torch_specific (filter _ ms')) with false.
  - cbn [orb]. destruct (str_mem torch_specific ms); reflexivity.
  - symmetry. destruct (str_mem torch_specific (filter _ ms')) eqn:E; [|reflexivity]. apply str_mem_In, filter_In in E as [_ E]. rewrite str_eqb_refl in E. discriminate.
Qed.

(** ** One call *)
Lemma allow_each_spec allow names : forall done e, allow_each allow names = (done, e) ->
  (e = None -> done = names) /\ exists rest, names = done ++ rest.
Proof.
  induction names as [|f names IH]; cbn; intros done e H; [injection H as <- <-; split; [reflexivity|exists []; reflexivity]|].
  destruct (allow f); [injection H as <- <-; split; [discriminate|exists (f :: names); reflexivity]|].
  destruct (allow_each allow names) as [d e'] eqn:E. injection H as <- <-. destruct (IH _ _ eq_refl) as [H1 [rest H2]].
  split; [intros He; rewrite (H1 He); reflexivity|exists rest; cbn; rewrite <- H2; reflexivity].
Qed.
Lemma allow_each_ok allow names : (forall f, In f names -> allow f = None) -> allow_each allow names = (names, None).
Proof. induction names as [|f names IH]; intros H; [reflexivity|]. cbn. rewrite (H f (or_introl eq_refl)), IH; [reflexivity|]. intros g Hg. apply H. right. exact Hg. Qed.
Lemma able_effect w : able w -> allow_ops w = {| ef_allowed := the_functions; ef_warned := false; ef_flag := true; ef_raised := None |}.
Proof.
  intros (H1 & H2 & H3). unfold allow_ops. rewrite H1.
  change [lit "rearrange"; lit "reduce"; lit "repeat"; lit "einsum"; lit "pack"; lit "unpack"] with the_functions. rewrite (allow_each_ok _ _ H2).
  destruct (tw_version w) as [v|]; [|reflexivity]. destruct H3 as (c & rest & -> & Hc). destruct (N.ltb_spec c 50); [lia|reflexivity].
Qed.
Lemma effect_prefix w : exists rest, the_functions = ef_allowed (allow_ops w) ++ rest.
Proof.
  unfold allow_ops. destruct (match tw_version w with None => _ | Some _ => _ end) as [[]|]; try (exists the_functions; reflexivity).
  destruct (tw_dynamo w); try (exists the_functions; reflexivity). destruct (allow_each _ _) as [done e] eqn:E. apply allow_each_spec in E as [_ E]. exact E.
Qed.
Lemma effect_flag w : ef_flag (allow_ops w) = true <-> ef_raised (allow_ops w) = None /\ ef_allowed (allow_ops w) = the_functions.
Proof.
  unfold allow_ops. destruct (match tw_version w with None => _ | Some _ => _ end) as [[]|]; try (cbn; split; [discriminate|intros [? ?]; discriminate]).
  destruct (tw_dynamo w); try (cbn; split; [discriminate|intros [? ?]; discriminate]). destruct (allow_each _ _) as [done e] eqn:E. apply allow_each_spec in E as [E _].
  destruct e as [x|]; cbn; [split; [discriminate|intros [? ?]; discriminate]|]. split; [|reflexivity]. intros _. split; [reflexivity|]. apply E. reflexivity.
Qed.
Lemma effect_finished w : ef_raised (allow_ops w) = None -> ef_allowed (allow_ops w) = [] \/ ef_allowed (allow_ops w) = the_functions.
Proof.
  unfold allow_ops. destruct (match tw_version w with None => _ | Some _ => _ end) as [[]|]; try (left; reflexivity).
  destruct (tw_dynamo w); try (left; reflexivity). destruct (allow_each _ _) as [done e] eqn:E. apply allow_each_spec in E as [E _]. cbn. intros ->. right. apply E. reflexivity.
Qed.
Lemma effect_warned w : ef_warned (allow_ops w) = true <-> tw_dynamo w = Absent /\ match tw_version w with None => True | Some v => exists c rest, v = c :: rest /\ (50 <= c)%N end.
Proof.
  unfold allow_ops. destruct (tw_version w) as [[|c rest]|].
  - cbn. split; [discriminate|intros [_ (c & rest & ? & _)]; discriminate].
  - destruct (N.ltb_spec c 50).
    + cbn. split; [discriminate|intros [_ (c' & rest' & E & Hc)]; injection E as <- <-; lia].
    + assert (HX : exists c0 rest0, c :: rest = c0 :: rest0 /\ (50 <= c0)%N) by (exists c, rest; split; [reflexivity|assumption]).
      destruct (tw_dynamo w); [destruct (allow_each _ _)| |]; cbn; (split; [try discriminate|first [intros [? _]; discriminate|reflexivity]]); intros _; split; [reflexivity|exact HX].
  - destruct (tw_dynamo w); [destruct (allow_each _ _)| |]; cbn; (split; [try discriminate|first [intros [? _]; discriminate|reflexivity]]); intros _; split; [reflexivity|exact I].
Qed.
Lemma version_first major rest : exists c r, version major rest = c :: r /\ (major < 2 -> (c < 50)%N) /\ (2 <= major < 10 -> (50 <= c)%N) /\ (10 <= major < 20 -> (c < 50)%N).
Proof.
  unfold version. destruct (Nat.lt_ge_cases major 20) as [H|H].
  - do 20 (destruct major as [|major]; [eexists; eexists; split; [reflexivity|repeat split; intros; lia]|]). lia.
  - destruct (str_of_int (Z.of_nat major)) as [|c r]; [exists 46%N, rest|exists c, (r ++ lit "." ++ rest)]; (split; [reflexivity|]); repeat split; intros; lia.
Qed.
Lemma versions_known w major rest : tw_version w = Some (version major rest) -> tw_dynamo w = Present -> (forall f, tw_allow w f = None) ->
  (major < 10 -> (ef_allowed (allow_ops w) = the_functions <-> 2 <= major)) /\ (10 <= major < 20 -> ef_allowed (allow_ops w) = []).
Proof.
  intros H1 H2 H3. destruct (version_first major rest) as (c & r & E & V1 & V2 & V3). rewrite E in H1. unfold allow_ops. rewrite H1, H2.
  rewrite (allow_each_ok _ _ (fun f _ => H3 f)). split.
  - intros Hm. destruct (Nat.lt_ge_cases major 2) as [L|L].
    + specialize (V1 L). destruct (N.ltb_spec c 50); [|lia]. cbn. split; [discriminate|lia].
    + destruct (N.ltb_spec c 50) as [K|K]; [specialize (V2 (conj L Hm)); lia|]. cbn. split; [intros; exact L|reflexivity].
  - intros Hm. specialize (V3 Hm). destruct (N.ltb_spec c 50); [reflexivity|lia].
Qed.

(** ** Histories *)
Section Process.
  Context {T : Type} (type_of : T -> nat) (accepts : bclass -> T -> bool).
  Context (import_torch : nat -> option exn) (world : nat -> torch_world) (others : nat -> bclass -> list pystr -> option exn * list pystr).
  (** the worlds met by imports, and by calls *)
  Context (Q : bool -> torch_world -> Prop) (HQ : forall k, Q true (world k)).
  Notation build := (build import_torch world others).
  Notation build_effects := (build_effects import_torch world).
  Notation ask := (ask type_of accepts import_torch world others).
  Notation occur := (occur type_of accepts import_torch world others).
  Notation after := (after type_of accepts import_torch world others).

  Definition finished (be : bool * effect) : bool := let '(b, ef) := be in b && match ef_raised ef with None => true | Some _ => false end.
  Definition count (l : list (bool * effect)) : nat := length (filter finished l).
  (** a backend of torch is there only when the module is; the module is there once it was imported *)
  Record sound (st : registry) (efs : list (bool * effect)) : Prop := {
    s_count : count efs = if str_mem torch_specific (modules st) then 1 else 0;
    s_loaded : forall fw b, In (fw, b) (loaded st) -> is_torch (snd b) = true -> str_mem torch_specific (modules st) = true;
    s_types : forall t b, In (t, b) (by_type st) -> is_torch (snd b) = true -> str_mem torch_specific (modules st) = true;
    s_from : forall b ef, In (b, ef) efs -> exists w, Q b w /\ ef = allow_ops w }.
  Lemma count_app l m : count (l ++ m) = count l + count m.
  Proof. unfold count. rewrite filter_app, app_length. reflexivity. Qed.

  Lemma construct_sound c st efs : sound st efs -> forall st' res, construct build c st = (st', res) ->
    exists a, attempts st' = attempts st ++ [a] /\ clock st' = S (clock st) /\ loaded st' = loaded st /\ by_type st' = by_type st /\
      sound st' (efs ++ build_effects (clock st) a) /\ (forall b, res = Ok b -> snd b = c) /\
      (forall b, res = Ok b -> is_torch c = true -> str_mem torch_specific (modules st') = true).
  Proof.
    intros [S1 S2 S3 S4] st' res. unfold construct. destruct (build (clock st) c (modules st)) as [f ms] eqn:E. intros H. injection H as <- <-.
    eexists. split; [reflexivity|]. split; [reflexivity|]. split; [reflexivity|]. split; [reflexivity|]. unfold Dynamo.build in E. unfold Dynamo.build_effects. cbn [at_class at_modules].
    destruct (is_torch c) eqn:Ec; cbn [andb].
    - destruct (import_torch (clock st)) as [e|].
      { injection E as <- <-. split; [|split; intros b Hb; discriminate]. replace (if negb _ then [] else []) with (@nil (bool * effect)) by (destruct (negb _); reflexivity).
        rewrite app_nil_r. split; assumption. }
      destruct (str_mem torch_specific (modules st)) eqn:Em; cbn [negb].
      { injection E as <- <-. rewrite app_nil_r. split; [split; cbn [modules loaded by_type]; rewrite ?Em; auto|]. split; intros b Hb; injection Hb as <-; auto. }
      destruct (ef_raised (allow_ops (world (clock st)))) as [e|] eqn:Er.
      { injection E as <- <-. split; [|split; intros b Hb; discriminate]. split; cbn [modules loaded by_type].
        - rewrite count_app, S1, Em. unfold count. cbn. rewrite Er. reflexivity.
        - rewrite Em. exact S2.
        - rewrite Em. exact S3.
        - intros b ef Hi. apply in_app_iff in Hi as [Hi|[Hi|[]]]; [eapply S4, Hi|]. injection Hi as <- <-. exists (world (clock st)). auto. }
      injection E as <- <-. assert (Hm : str_mem torch_specific (modules st ++ [torch_specific]) = true) by (rewrite mem_app; apply orb_true_r).
      split; [|split; intros b Hb; injection Hb as <-; auto]. split; cbn [modules loaded by_type].
      + rewrite count_app, S1, Hm. unfold count. cbn. rewrite Er. reflexivity.
      + intros; exact Hm.
      + intros; exact Hm.
      + intros b ef Hi. apply in_app_iff in Hi as [Hi|[Hi|[]]]; [eapply S4, Hi|]. injection Hi as <- <-. exists (world (clock st)). auto.
    - destruct (others (clock st) c (modules st)) as [e ms']. injection E as <- <-. rewrite app_nil_r. split; [|split].
      + split; cbn [modules loaded by_type]; rewrite ?mem_with_others; auto.
      + intros b Hb. destruct e; [discriminate|]. injection Hb as <-. reflexivity.
      + intros b Hb Hc. congruence.
  Qed.

  Definition grown (st st' : registry) (efs efs' : list (bool * effect)) : Prop :=
    exists new, attempts st' = attempts st ++ new /\ clock st' = clock st + length new /\
      efs' = efs ++ flat_map (fun '(k, a) => build_effects k a) (enumerate_from (clock st) new).
  Lemma try_sound cs x : forall st efs st' res, sound st efs -> try_classes type_of accepts build cs x st = (st', res) ->
    exists efs', grown st st' efs efs' /\ sound st' efs' /\ (forall b, res = Ok b -> is_torch (snd b) = true -> str_mem torch_specific (modules st') = true).
  Proof.
    induction cs as [|c cs IH]; intros st efs st' res HS E; cbn [try_classes] in E.
    - injection E as <- <-. exists efs. split; [exists []; rewrite !app_nil_r; auto|]. split; [exact HS|]. intros b Hb. discriminate.
    - destruct (find_key str_eqb (c_framework c) (loaded st)); [apply (IH _ _ _ _ HS E)|].
      destruct (str_mem (c_framework c) (modules st)); [|apply (IH _ _ _ _ HS E)].
      destruct (construct build c st) as [st1 [b|e]] eqn:Ec.
      + destruct (construct_sound c st efs HS _ _ Ec) as (a & A1 & A2 & A3 & A4 & A5 & A6 & A7). specialize (A6 b eq_refl). specialize (A7 b eq_refl). rewrite <- A6 in A7.
        assert (HS1 : sound (set_loaded (c_framework c) b st1) (efs ++ build_effects (clock st) a)).
        { destruct A5 as [S1 S2 S3 S4]. split; cbn [set_loaded modules loaded by_type]; auto. intros fw b' Hi. apply in_app_iff in Hi as [Hi|[Hi|[]]]; [eapply S2, Hi|]. injection Hi as _ <-. exact A7. }
        destruct (accepts (snd b) x) eqn:Ea.
        * injection E as <- <-. exists (efs ++ build_effects (clock st) a). split.
          { exists [a]. cbn [set_type set_loaded attempts clock length enumerate_from flat_map]. rewrite A1, A2, app_nil_r. split; [reflexivity|split; [lia|reflexivity]]. }
          split; [|intros b' Hb; injection Hb as <-; exact A7].
          destruct HS1 as [S1 S2 S3 S4]. split; cbn [set_type modules loaded by_type]; auto. intros t b' Hi. apply in_app_iff in Hi as [Hi|[Hi|[]]]; [eapply S3, Hi|]. injection Hi as _ <-. exact A7.
        * destruct (IH _ _ _ _ HS1 E) as (efs' & (new & N1 & N2 & N3) & R1 & R2). exists efs'. split; [|split; assumption]. exists (a :: new).
          cbn [set_loaded attempts clock] in N1, N2, N3. rewrite A1, <- app_assoc in N1. rewrite A2 in N2, N3. split; [exact N1|]. split; [cbn [length]; lia|].
          rewrite N3, <- app_assoc. reflexivity.
      + injection E as <- <-. destruct (construct_sound c st efs HS _ _ Ec) as (a & A1 & A2 & A3 & A4 & A5 & A6 & A7). exists (efs ++ build_effects (clock st) a).
        split; [|split; [exact A5|intros b Hb; discriminate]]. exists [a]. rewrite A1, A2. cbn [length enumerate_from flat_map]. rewrite app_nil_r. split; [reflexivity|split; [lia|reflexivity]].
  Qed.
  Lemma ask_sound roots x p p' res : sound (p_reg p) (p_effects p) -> ask roots x p = (p', res) ->
    sound (p_reg p') (p_effects p') /\ (exists new, p_effects p' = p_effects p ++ new) /\ (forall b, res = Ok b -> is_torch (snd b) = true -> str_mem torch_specific (modules (p_reg p')) = true).
  Proof.
    intros HS. unfold Dynamo.ask. destruct (get_backend type_of accepts build roots x (p_reg p)) as [st r] eqn:E. intros H. injection H as <- <-. cbn [p_reg p_effects].
    assert (G : exists efs', grown (p_reg p) st (p_effects p) efs' /\ sound st efs' /\ (forall b, r = Ok b -> is_torch (snd b) = true -> str_mem torch_specific (modules st) = true)).
    { unfold get_backend in E. destruct (find_key Nat.eqb (type_of x) (by_type (p_reg p))) as [b|] eqn:Ek.
      { injection E as <- <-. exists (p_effects p). split; [exists []; rewrite !app_nil_r; auto|]. split; [exact HS|]. intros b' Hb. injection Hb as <-.
        assert (Hi : exists t, In (t, b) (by_type (p_reg p))).
        { clear -Ek. induction (by_type (p_reg p)) as [|[t v] d IH]; [discriminate|]. cbn in Ek. destruct (_ =? _); [injection Ek as ->; exists t; left; reflexivity|]. destruct (IH Ek) as [t' H]. exists t'. right. exact H. }
        destruct Hi as [t Hi]. exact (s_types _ _ HS t b Hi). }
      destruct (find _ (loaded (p_reg p))) as [[fw b]|] eqn:Ef; [|apply (try_sound _ _ _ _ _ _ HS E)].
      injection E as <- <-. apply find_some in Ef as [Hi _]. exists (p_effects p). split; [exists []; rewrite !app_nil_r; auto|]. pose proof (s_loaded _ _ HS fw b Hi) as Hb. split.
      - destruct HS as [S1 S2 S3 S4]. split; cbn [set_type modules loaded by_type]; auto. intros t b' Hi'. apply in_app_iff in Hi' as [Hi'|[Hi'|[]]]; [eapply S3, Hi'|]. injection Hi' as _ <-. exact Hb.
      - intros b' Hb'. injection Hb' as <-. exact Hb. }
    destruct G as (efs' & (new & N1 & N2 & N3) & G1 & G2). rewrite N1, skipn_app, skipn_all, Nat.sub_diag. cbn [app skipn]. rewrite <- N3. split; [exact G1|]. split; [rewrite N3; eexists; reflexivity|exact G2].
  Qed.
  Lemma occur_sound p o : (forall w, o = Import w -> Q true w) -> (forall w, o = Call w -> Q false w) -> sound (p_reg p) (p_effects p) -> sound (p_reg (occur p o)) (p_effects (occur p o)).
  Proof.
    intros HI HC HS. destruct o as [ms|roots x|w|w]; cbn [Dynamo.occur].
    - destruct HS as [S1 S2 S3 S4]. split; cbn [p_reg p_effects with_modules modules loaded by_type]; rewrite ?mem_with_others; auto.
    - destruct (ask roots x p) as [p' r] eqn:E. apply (ask_sound _ _ _ _ _ HS) in E. apply E.
    - destruct (str_mem torch_specific (modules (p_reg p))) eqn:Em; [exact HS|]. destruct HS as [S1 S2 S3 S4]. rewrite Em in S1.
      assert (S4' : forall b ef, In (b, ef) (p_effects p ++ [(true, allow_ops w)]) -> exists w, Q b w /\ ef = allow_ops w).
      { intros b ef Hi. apply in_app_iff in Hi as [Hi|[Hi|[]]]; [eapply S4, Hi|]. injection Hi as <- <-. exists w. auto. }
      destruct (ef_raised (allow_ops w)) as [e|] eqn:Er; (split; cbn [p_reg p_effects with_modules modules loaded by_type]; auto).
      + rewrite count_app, S1, Em. unfold count. cbn. rewrite Er. reflexivity.
      + rewrite count_app, S1, mem_app, orb_true_r. unfold count. cbn. rewrite Er. reflexivity.
      + intros. rewrite mem_app. apply orb_true_r.
      + intros. rewrite mem_app. apply orb_true_r.
    - destruct (str_mem torch_specific (modules (p_reg p))) eqn:Em; [|exact HS]. destruct HS as [S1 S2 S3 S4]. split; cbn [p_reg p_effects]; auto.
      + rewrite count_app, S1. unfold count. cbn. apply Nat.add_0_r.
      + intros b ef Hi. apply in_app_iff in Hi as [Hi|[Hi|[]]]; [eapply S4, Hi|]. injection Hi as <- <-. exists w. auto.
  Qed.
  Definition fit (h : list (occurrence (T := T))) : Prop := (forall w, In (Import w) h -> Q true w) /\ (forall w, In (Call w) h -> Q false w).
  Lemma after_sound h : fit h -> sound (p_reg (after h)) (p_effects (after h)).
  Proof.
    unfold Dynamo.after. assert (G : sound (p_reg new_process) (p_effects new_process)) by (split; cbn; auto; intros; contradiction).
    revert G. generalize new_process as p. induction h as [|o h IH]; intros p HS [F1 F2]; [exact HS|]. cbn [fold_left]. apply IH; [|split; intros w Hw; [apply F1|apply F2]; right; exact Hw].
    apply occur_sound; [| |exact HS]; intros w ->; [apply F1|apply F2]; left; reflexivity.
  Qed.
  Lemma imports_once h : fit h -> imports_done (after h) <= 1.
  Proof. intros F. pose proof (s_count _ _ (after_sound h F)) as H. change (count (p_effects (after h)) <= 1). rewrite H. destruct (str_mem _ _); lia. Qed.
  Lemma chosen h roots x p b : fit h -> ask roots x (after h) = (p, Ok b) -> is_torch (snd b) = true ->
    exists w, Q true w /\ In (true, allow_ops w) (p_effects p) /\ ef_raised (allow_ops w) = None.
  Proof.
    intros F H Hb. apply (ask_sound _ _ _ _ _ (after_sound h F)) in H as (HS & _ & H). specialize (H b eq_refl Hb). pose proof (s_count _ _ HS) as C. rewrite H in C. unfold count in C.
    destruct (filter finished (p_effects p)) as [|[c ef] l] eqn:E; [discriminate|]. assert (Hi : In (c, ef) (filter finished (p_effects p))) by (rewrite E; left; reflexivity).
    apply filter_In in Hi as [Hi Hf]. destruct (s_from _ _ HS c ef Hi) as (w & Hw & ->). cbn in Hf. apply andb_true_iff in Hf as [-> Hf]. exists w. split; [exact Hw|]. split; [exact Hi|]. destruct (ef_raised (allow_ops w)); [discriminate|reflexivity].
  Qed.
End Process.

Lemma filter_every {B} (p : B -> bool) l : (forall b, In b l -> p b = true) -> filter p l = l.
Proof. induction l as [|b l IH]; intros H; [reflexivity|]. cbn. rewrite (H b (or_introl eq_refl)), IH; [reflexivity|]. intros c Hc. apply H. right. exact Hc. Qed.

Section Registered.
  Context {T : Type} (type_of : T -> nat) (accepts : bclass -> T -> bool).
  Context (import_torch : nat -> option exn) (world : nat -> torch_world) (others : nat -> bclass -> list pystr -> option exn * list pystr).
  Notation ask := (ask type_of accepts import_torch world others).
  Notation after := (after type_of accepts import_torch world others).
  Lemma import_finished_once h : imports_done (after h) <= 1.
  Proof. apply (imports_once _ _ _ _ _ (fun _ _ => True)); [auto|split; auto]. Qed.
  Lemma only_these h f : In f (registered (after h)) -> In f the_functions.
  Proof.
    intros H. apply in_flat_map in H as ([b ef] & Hi & Hf). destruct (s_from _ _ _ (after_sound type_of accepts import_torch world others (fun _ _ => True) (fun _ => I) h (conj (fun _ _ => I) (fun _ _ => I))) b ef Hi) as (w & _ & ->).
    destruct (effect_prefix w) as [rest ->]. apply in_or_app. left. exact Hf.
  Qed.
  Lemma torch_registered h roots x p b : (forall k, able (world k)) -> (forall w, In (Import w) h -> able w) ->
    ask roots x (after h) = (p, Ok b) -> c_name (snd b) = lit "TorchBackend" ->
    incl the_functions (registered p) /\ exists c ef, In (c, ef) (p_effects p) /\ ef_flag ef = true.
  Proof.
    intros Hk Hi H Hb. assert (F : fit (T := T) (fun c w => c = true -> able w) h) by (split; [auto|intros; discriminate]).
    destruct (chosen type_of accepts import_torch world others (fun c w => c = true -> able w) (fun k _ => Hk k) h roots x p b F H) as (w & Hw & Hin & _); [unfold is_torch; rewrite Hb; reflexivity|].
    specialize (Hw eq_refl). rewrite (able_effect w Hw) in Hin. split; [|exists true; eexists; split; [exact Hin|reflexivity]].
    intros f Hf. apply in_flat_map. eexists. split; [exact Hin|exact Hf].
  Qed.
  Lemma registered_once h : (forall k, able (world k)) -> (forall w, In (Import w) h -> able w) -> no_calls h ->
    registered (after h) = [] \/ registered (after h) = the_functions.
  Proof.
    intros Hk Hi Hc. assert (F : fit (T := T) (fun c w => c = true /\ able w) h) by (split; [auto|intros w Hw; destruct (Hc w Hw)]).
    pose proof (after_sound type_of accepts import_torch world others (fun c w => c = true /\ able w) (fun k => conj eq_refl (Hk k)) h F) as [S1 _ _ S4].
    assert (E : filter finished (p_effects (after h)) = p_effects (after h)).
    { apply filter_every. intros [c ef] Hin. destruct (S4 c ef Hin) as (w & [-> Hw] & ->). rewrite (able_effect w Hw). reflexivity. }
    unfold count in S1. rewrite E in S1. unfold registered. destruct (p_effects (after h)) as [|[c ef] [|]] eqn:Ep.
    - left. reflexivity.
    - right. destruct (S4 c ef (or_introl eq_refl)) as (w & [-> Hw] & ->). rewrite (able_effect w Hw). reflexivity.
    - cbn in S1. destruct (str_mem _ _); discriminate.
  Qed.
End Registered.
