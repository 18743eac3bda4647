(** * Facts: the recipes of a layer through the cache, with warnings *)
From Verif Require Import Py Tensor Parsing Recipe Ops Backends Api Einsum Cache CacheFacts Warnings Layers EinMix
  ListFacts SpecGrammar SpecPattern Compile ParseFacts ParseFacts2 ParseFacts3 FrontFacts SpecWarnings WarnFacts LayerWarnings.

Lemma tres_bind {A B} (a : told A) (f : A -> told B) c :
  told_result (tbind a f c) = bind (told_result (a c)) (fun x => told_result (f x (told_memo (a c)))).
Proof. unfold tbind, told_result, told_memo. destruct (a c) as [[log [x|e]] c1]; cbn; [|reflexivity]. destruct (f x c1) as [[? ?] ?]; reflexivity. Qed.
Lemma tlog_bind {A B} (a : told A) (f : A -> told B) c :
  told_log (tbind a f c) = told_log (a c) ++ match told_result (a c) with Ok x => told_log (f x (told_memo (a c))) | Err _ => [] end.
Proof. unfold tbind, told_result, told_memo, told_log. destruct (a c) as [[log [x|e]] c1]; cbn; [|rewrite app_nil_r; reflexivity]. destruct (f x c1) as [[? ?] ?]; reflexivity. Qed.
Lemma tmemo_bind {A B} (a : told A) (f : A -> told B) c :
  told_memo (tbind a f c) = match told_result (a c) with Ok x => told_memo (f x (told_memo (a c))) | Err _ => told_memo (a c) end.
Proof. unfold tbind, told_result, told_memo. destruct (a c) as [[log [x|e]] c1]; cbn; [|reflexivity]. destruct (f x c1) as [[? ?] ?]; reflexivity. Qed.

(** ** keys *)
Lemma rkey_eq k k' : rkey_eqb k k' = true -> k = k'.
Proof.
  destruct k as [[[p op] ns] n], k' as [[[p' op'] ns'] n']. intros E. pose proof (rkey_eqb_op _ _ _ _ _ _ _ _ E) as (-> & _ & -> & ->).
  unfold rkey_eqb in E. apply andb_true_iff in E as [E _]. apply andb_true_iff in E as [E _]. apply andb_true_iff in E as [_ E].
  destruct op as [s|i], op' as [t|j]; try discriminate; cbn in E; [apply str_eqb_eq in E|apply Nat.eqb_eq in E]; subst; reflexivity.
Qed.
Lemma rkey_diff k k' : k <> k' -> rkey_eqb k k' = false.
Proof. intros H. destruct (rkey_eqb k k') eqn:E; [apply rkey_eq in E; contradiction|reflexivity]. Qed.
Lemma take_None k (c : memo) : take_key rkey_eqb k c = None <-> ~ In k (map fst c).
Proof.
  induction c as [|[k' v] c IH]; cbn; [tauto|]. destruct (rkey_eqb k k') eqn:E.
  - apply rkey_eq in E. subst. split; [discriminate|]. intros H. exfalso. apply H. auto.
  - assert (Hk : k' <> k) by (intros ->; rewrite rkey_refl in E; discriminate). destruct (take_key rkey_eqb k c) as [[e rest]|].
    + split; [discriminate|]. intros H. exfalso. assert (Y : Some (e, rest) = None) by (apply IH; intros Y; apply H; auto). discriminate Y.
    + split; [|reflexivity]. intros _ [X|X]; [contradiction|]. revert X. apply IH. reflexivity.
Qed.
Lemma take_Some k (c : memo) e rest : take_key rkey_eqb k c = Some (e, rest) -> fst e = k /\ In (k, snd e) c /\ incl rest c.
Proof. intros H. destruct (take_key_spec _ _ _ _ _ H) as (H1 & H2 & H3). apply rkey_eq in H2. destruct e as [k' v]. cbn in *. subst. auto. Qed.
Definition found (k : rkey) (c : memo) : option recipe := match take_key rkey_eqb k c with Some (e, _) => Some (snd e) | None => None end.
Lemma found_cons k k' v c : found k ((k', v) :: c) = if rkey_eqb k k' then Some v else found k c.
Proof. unfold found. cbn. destruct (rkey_eqb k k'); [reflexivity|]. destruct (take_key rkey_eqb k c) as [[e r]|]; reflexivity. Qed.
Lemma found_hit k k' (c : memo) e rest : take_key rkey_eqb k c = Some (e, rest) -> found k' (e :: rest) = found k' c.
Proof.
  revert e rest. induction c as [|[j w] c IH]; intros e rest; cbn; [discriminate|]. destruct (rkey_eqb k j) eqn:E.
  - intros H. injection H as <- <-. reflexivity.
  - destruct (take_key rkey_eqb k c) as [[e' rest']|] eqn:E'; [|discriminate]. intros H. injection H as <- <-. specialize (IH _ _ eq_refl). destruct e' as [j' w'].
    destruct (take_Some _ _ _ _ E') as (Hj & _). cbn in Hj. subst j'. rewrite !found_cons in *. destruct (rkey_eqb k' j) eqn:F; [|exact IH].
    destruct (rkey_eqb k' k) eqn:G; [|reflexivity]. apply rkey_eq in G. apply rkey_eq in F. subst. rewrite rkey_refl in E. discriminate.
Qed.

Section Facts.
  Context (U : unicode) (HU : unicode_ok U) (K : pystr -> bool) (m : nat).

  (** every entry was computed in this or an earlier call *)
  Definition memo_ok (c : memo) : Prop :=
    forall p op ns n rec, In ((p, op, ns, n), rec) c -> exists o, orders_ok o /\ prepare_recipe U o p (op_of_key op) ns n = Ok rec.

  Lemma step o k (c : memo) :
    match take_key rkey_eqb k c with
    | Some (e, rest) => recipe_t U K m o k c = ([], Ok (snd e), e :: rest)
    | None => let '(p, op, ns, n) := k in
        recipe_t U K m o k c = (map AboutName (fst (prepare_recipe_w U K o p (op_of_key op) ns n)), prepare_recipe U o p (op_of_key op) ns n,
          match prepare_recipe U o p (op_of_key op) ns n with Ok rec => firstn m ((k, rec) :: c) | Err _ => c end)
    end.
  Proof.
    destruct k as [[[p op] ns] n]. unfold recipe_t, cached_prepare_w, lru_w. destruct (take_key rkey_eqb (p, op, ns, n) c) as [[e rest]|]; [reflexivity|].
    rewrite prepare_w_snd. destruct (prepare_recipe U o p (op_of_key op) ns n) as [rec|e] eqn:E; cbn; rewrite prepare_w_snd, E; reflexivity.
  Qed.

  Section Loop.
    Context (os : nat -> orders) (p : pystr) (op : opkey) (ns : list pystr).
    Notation key n := (p, op, ns, n).
    Definition loop (ds : list nat) : told (list (nat * recipe)) := tmapM (fun n => tlet rec := recipe_t U K m (os n) (key n) in tret (Ok (n, rec))) ds.
    Lemma loop_cons n ds c : loop (n :: ds) c =
      let '(log, r, c1) := recipe_t U K m (os n) (key n) c in
      match r with
      | Ok rec => let '(log2, r2, c2) := loop ds c1 in (log ++ log2, match r2 with Ok ys => Ok ((n, rec) :: ys) | Err e => Err e end, c2)
      | Err e => (log, Err e, c1)
      end.
    Proof.
      unfold loop. cbn [tmapM]. unfold tbind. destruct (recipe_t U K m (os n) (key n) c) as [[log [rec|e]] c1]; [|reflexivity]. cbn [tret].
      set (X := tmapM _ ds c1). destruct X as [[log2 [ys|e]] c2]; cbn; rewrite ?app_nil_r; reflexivity.
    Qed.

    (** *** outcome *)
    Lemma loop_result ds : NoDup ds -> (forall n, orders_ok (os n)) -> forall c, memo_ok c ->
      exists os1, (forall n, orders_ok (os1 n)) /\ told_result (loop ds c) = mapM (fun n => let* rec := prepare_recipe U (os1 n) p (op_of_key op) ns n in Ok (n, rec)) ds /\ memo_ok (told_memo (loop ds c)).
    Proof.
      intros Nd Ho. induction Nd as [|n ds Hn _ IH]; intros c Hc; [exists os; cbn; auto|]. rewrite loop_cons. pose proof (step (os n) (key n) c) as S.
      destruct (take_key rkey_eqb (key n) c) as [[e rest]|] eqn:Et.
      - rewrite S. destruct (take_Some _ _ _ _ Et) as (He & Hin & Hincl).
        assert (Hc1 : memo_ok (e :: rest)). { intros p' op' ns' n' rec [X|X]; [|apply (Hc _ _ _ _ _ (Hincl _ X))]. destruct e as [k v]. cbn in He, Hin. subst k. injection X as <- <- <- <- <-. apply (Hc _ _ _ _ _ Hin). }
        destruct (Hc _ _ _ _ _ Hin) as (o & Ho1 & Hp). destruct (IH _ Hc1) as (os1 & O1 & R1 & M1). destruct (loop ds (e :: rest)) as [[log2 r2] c2]. unfold told_result, told_memo in *. cbn [fst snd] in *.
        exists (fun q => if q =? n then o else os1 q). split; [intros q; destruct (q =? n); auto|]. split; [|exact M1]. cbn [mapM]. rewrite Nat.eqb_refl, Hp. cbn [bind].
        rewrite (mapM_ext_in _ (fun n => let* rec := prepare_recipe U (os1 n) p (op_of_key op) ns n in Ok (n, rec)) ds).
        + rewrite <- R1. destruct r2; reflexivity.
        + intros q Hq. destruct (Nat.eqb_spec q n) as [->|]; [contradiction|reflexivity].
      - rewrite S. destruct (prepare_recipe U (os n) p (op_of_key op) ns n) as [rec|e] eqn:Hp.
        + assert (Hc1 : memo_ok (firstn m ((key n, rec) :: c))).
          { intros p' op' ns' n' rec' X. apply In_firstn' in X as [X|X]; [|apply (Hc _ _ _ _ _ X)]. injection X as <- <- <- <- <-. exists (os n). auto. }
          destruct (IH _ Hc1) as (os1 & O1 & R1 & M1). cbv beta iota. unfold memo, rkey in *. destruct (loop ds (firstn m ((key n, rec) :: c))) as [[log2 r2] c2]. unfold told_result, told_memo in *. cbn [fst snd] in *.
          exists (fun q => if q =? n then os n else os1 q). split; [intros q; destruct (q =? n); auto|]. split; [|exact M1]. cbn [mapM]. rewrite Nat.eqb_refl, Hp. cbn [bind].
          rewrite (mapM_ext_in _ (fun n => let* rec := prepare_recipe U (os1 n) p (op_of_key op) ns n in Ok (n, rec)) ds).
          * rewrite <- R1. destruct r2; reflexivity.
          * intros q Hq. destruct (Nat.eqb_spec q n) as [->|]; [contradiction|reflexivity].
        + exists os. unfold told_result, told_memo. cbn. rewrite Hp. auto.
    Qed.

    (** *** warnings, when nothing is found *)
    Context (L R : expr) (Hr : reads U p L R).
    Notation each := (map AboutName (flat_map (discouraged K) (written_names L ++ written_names R ++ ns))).
    Lemma step_miss n c rec : ~ In (key n) (map fst c) -> prepare_recipe U (os n) p (op_of_key op) ns n = Ok rec ->
      recipe_t U K m (os n) (key n) c = (each, Ok rec, firstn m ((key n, rec) :: c)).
    Proof.
      intros H Hp. pose proof (step (os n) (key n) c) as S. rewrite (proj2 (take_None _ _) H) in S. rewrite S, Hp, (prepare_alarms U K HU _ _ _ _ _ _ _ _ Hr Hp). reflexivity.
    Qed.
    Lemma loop_first ds : NoDup ds -> forall c rs, (forall n, In n ds -> ~ In (key n) (map fst c)) -> told_result (loop ds c) = Ok rs ->
      told_log (loop ds c) = concat (repeat each (length ds)) /\ incl (map fst (told_memo (loop ds c))) (map fst c ++ map (fun n => key n) ds).
    Proof.
      induction 1 as [|n ds Hn _ IH]; intros c rs Hm E; [cbn; rewrite app_nil_r; auto using incl_refl|]. rewrite loop_cons in *.
      destruct (prepare_recipe U (os n) p (op_of_key op) ns n) as [rec|e] eqn:Hp.
      2:{ exfalso. pose proof (step (os n) (key n) c) as S. rewrite (proj2 (take_None _ _) (Hm n (or_introl eq_refl))), Hp in S. rewrite S in E. discriminate. }
      rewrite (step_miss n c rec (Hm n (or_introl eq_refl)) Hp) in *.
      assert (Hk : incl (map fst (firstn m ((key n, rec) :: c))) (key n :: map fst c)).
      { intros k Hk. apply in_map_iff in Hk as [[k' v] [<- Hk]]. apply In_firstn' in Hk as [Hk|Hk]; [injection Hk as <- <-; left; reflexivity|right; apply (in_map fst _ _ Hk)]. }
      unfold memo, rkey in *. destruct (loop ds (firstn m ((key n, rec) :: c))) as [[log2 r2] c2] eqn:El. unfold told_result in E. cbn [fst snd] in E. destruct r2 as [ys|e]; [|discriminate].
      destruct (IH (firstn m ((key n, rec) :: c)) ys) as [I1 I2].
      - intros q Hq X. apply Hk in X as [X|X]; [injection X as ->; contradiction|]. apply (Hm q (or_intror Hq) X).
      - rewrite El. reflexivity.
      - rewrite El in I1, I2. unfold told_log, told_memo in *. cbn [fst snd length repeat concat map] in *. rewrite I1. split; [reflexivity|].
        intros k Hk2. apply I2 in Hk2. apply in_app_or in Hk2 as [X|X]; [apply Hk in X as [X|X]|]; apply in_or_app; cbn; auto.
    Qed.

    (** *** what is found afterwards *)
    Lemma take_app k (f rest : memo) : ~ In k (map fst f) -> take_key rkey_eqb k (f ++ rest) = match take_key rkey_eqb k rest with Some (e, r) => Some (e, f ++ r) | None => None end.
    Proof.
      induction f as [|[j w] f IH]; intros H; [cbn; destruct (take_key rkey_eqb k rest) as [[? ?]|]; reflexivity|]. cbn in H |- *.
      rewrite rkey_diff by (intros ->; apply H; auto). rewrite IH by (intros X; apply H; auto). destruct (take_key rkey_eqb k rest) as [[? ?]|]; reflexivity.
    Qed.
    Lemma loop_memo ds : NoDup ds -> forall f rest rs, (forall n, In n ds -> ~ In (key n) (map fst f)) -> length f + length ds <= m -> told_result (loop ds (f ++ rest)) = Ok rs ->
      map fst rs = ds /\ exists rest', told_memo (loop ds (f ++ rest)) = rev (map (fun '(n, rec) => (key n, rec)) rs) ++ f ++ rest'.
    Proof.
      induction 1 as [|n ds Hn Nd IH]; intros f rest rs Hf Hl E; [cbn in E; injection E as <-; cbn; eauto|]. rewrite loop_cons in *. pose proof (step (os n) (key n) (f ++ rest)) as S.
      rewrite take_app in S by (apply Hf; left; reflexivity). cbn [length] in Hl.
      assert (X : exists log rec rest1, recipe_t U K m (os n) (key n) (f ++ rest) = (log, Ok rec, ((key n, rec) :: f) ++ rest1)).
      { destruct (take_key rkey_eqb (key n) rest) as [[e r]|] eqn:Et.
        - destruct (take_Some _ _ _ _ Et) as (He & _). destruct e as [k v]. cbn in He. subst k. rewrite S. exists [], v, r. reflexivity.
        - rewrite S in *. destruct (prepare_recipe U (os n) p (op_of_key op) ns n) as [rec|e]; [|discriminate]. destruct m as [|m']; [lia|]. cbn [firstn].
          rewrite firstn_app, firstn_all2 by lia. exists (map AboutName (fst (prepare_recipe_w U K (os n) p (op_of_key op) ns n))), rec, (firstn (m' - length f) rest). reflexivity. }
      destruct X as (log & rec & rest1 & X). rewrite X in *. destruct (loop ds (((key n, rec) :: f) ++ rest1)) as [[log2 r2] c2] eqn:El. unfold told_result in E. cbn [fst snd] in E.
      destruct r2 as [ys|e]; [|discriminate]. injection E as <-. destruct (IH ((key n, rec) :: f) rest1 ys) as [I1 [rest' I2]].
      - intros q Hq [Y|Y]; [injection Y as ->; contradiction|]. apply (Hf q (or_intror Hq) Y).
      - cbn [length]. lia.
      - rewrite El. reflexivity.
      - rewrite El in I2. unfold told_memo in *. cbn [fst snd map rev] in *. split; [rewrite I1; reflexivity|]. exists rest'. rewrite I2, <- app_assoc. reflexivity.
    Qed.
    Lemma found_in (es : memo) rest k v : NoDup (map fst es) -> In (k, v) es -> found k (es ++ rest) = Some v.
    Proof.
      induction es as [|[j w] es IH]; intros N H; [destruct H|]. cbn [map fst] in N. inversion N as [|? ? N1 N2]; subst. cbn [app]. rewrite found_cons. destruct H as [H|H].
      - injection H as -> ->. rewrite rkey_refl. reflexivity.
      - rewrite rkey_diff; [apply IH; assumption|]. intros ->. apply N1, (in_map fst _ _ H).
    Qed.
    Lemma loop_found ds c rs : NoDup ds -> length ds <= m -> told_result (loop ds c) = Ok rs -> map fst rs = ds /\ forall n rec, In (n, rec) rs -> found (key n) (told_memo (loop ds c)) = Some rec.
    Proof.
      intros N Hl E. destruct (loop_memo ds N [] c rs) as [H1 [rest H2]]; [intros ? ? []|cbn; lia|exact E|]. split; [exact H1|]. intros n rec Hin. change ([] ++ c) with c in H2. rewrite H2. apply found_in.
      - rewrite map_rev. apply NoDup_rev. rewrite map_map. subst ds. clear - N. induction rs as [|[q v] rs IH]; [constructor|]. cbn [map fst] in *. inversion N as [|? ? N1 N2]; subst. constructor; [|auto].
        intros X. apply N1. apply in_map_iff in X as [[q' v'] [X Y]]. cbn in X. injection X as ->. apply (in_map fst _ _ Y).
      - rewrite <- in_rev. apply in_map_iff. exists (n, rec). auto.
    Qed.
  End Loop.
  Lemma loop_again os p op ns rs : forall c, (forall n rec, In (n, rec) rs -> found (p, op, ns, n) c = Some rec) ->
    told_log (loop os p op ns (map fst rs) c) = [] /\ told_result (loop os p op ns (map fst rs) c) = Ok rs.
  Proof.
    induction rs as [|[n rec] rs IH]; intros c H; [split; reflexivity|]. cbn [map fst]. rewrite loop_cons. pose proof (step (os n) (p, op, ns, n) c) as S. pose proof (H n rec (or_introl eq_refl)) as Hf. unfold found in Hf.
    destruct (take_key rkey_eqb (p, op, ns, n) c) as [[e rest]|] eqn:Et; [|discriminate]. injection Hf as Hf. rewrite S. destruct (IH (e :: rest)) as [I1 I2].
    - intros q v Hq. rewrite (found_hit _ _ _ _ _ Et). apply H. right. exact Hq.
    - destruct (loop os p op ns (map fst rs) (e :: rest)) as [[log2 r2] c2]. unfold told_log, told_result in *. cbn [fst snd app] in *. rewrite I1, I2, Hf. auto.
  Qed.
End Facts.
