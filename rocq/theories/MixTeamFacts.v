(** * EinMix layers in several threads: proofs *)
From Verif Require Import Py Tensor Parsing Recipe Ops Backends Api Packing Einsum Registry SpecGrammar SpecRegistry Cache Layers ListFacts EinMix Session SpecSession SessionFacts MixSession SpecMixSession MixSessionFacts
  Threads SpecThreads Crowd SpecCrowd CrowdFacts CrowdFacts2 CrowdFacts3 Team SpecTeam TeamFacts MixTeam SpecMixTeam.

Section Alone.
  Context {A R : Type} (U : unicode) (fw_of : nat -> option framework) (library : framework -> runtime A).
  Context (lib_einsum : framework -> pystr -> list (tensor A) -> result (tensor A)) (iadd : framework -> tensor A -> tensor A -> result (tensor A)) (after : nat -> nat).
  Context (Ha : types_stay fw_of after) (warm : object A -> Prop).
  Notation right := (right U library lib_einsum fw_of).
  Notation layer_by := (layer_by U library lib_einsum fw_of).
  Notation asks := (asks U library lib_einsum).
  Notation suitable := (suitable U library lib_einsum fw_of).
  Notation alone := (alone (R := R) U fw_of library lib_einsum).
  Notation outcome_alone := (outcome_alone (R := R) U fw_of library lib_einsum).
  Notation well_behaved := (well_behaved (R := R) U fw_of library lib_einsum warm).
  Notation inner_by := (inner_by U fw_of library lib_einsum).
  Notation mix_by := (mix_by U fw_of library lib_einsum).
  Notation inner_layer := (inner_layer (A := A)).
  Notation layers_of c := (snd (answer_to U fw_of library lib_einsum (fst c) (snd c) [])).
  Implicit Types (calls plain : list (orders * request A)) (p : script A R) (o : orders).

  (** a program gets from one point to another in at most [n] calls *)
  Definition reaches (n : nat) calls p calls' p' : Prop :=
    (exists more, calls' = calls ++ more) /\ (exists as_, alone calls p = as_ ++ alone calls' p' /\ length as_ <= n) /\
    outcome_alone calls p = outcome_alone calls' p' /\ (well_behaved calls' p' -> well_behaved calls p).
  Lemma reaches_refl n calls p : reaches n calls p calls p.
  Proof. split; [exists []; symmetry; apply app_nil_r|]. split; [exists []; split; [reflexivity|cbn; lia]|]. auto. Qed.
  Lemma reaches_trans n m calls p calls1 p1 calls2 p2 : reaches n calls p calls1 p1 -> reaches m calls1 p1 calls2 p2 -> reaches (n + m) calls p calls2 p2.
  Proof.
    intros ((m1 & E1) & (a1 & F1 & L1) & O1 & W1) ((m2 & E2) & (a2 & F2 & L2) & O2 & W2). split; [exists (m1 ++ m2); rewrite E2, E1, app_assoc; reflexivity|].
    split; [exists (a1 ++ a2); split; [rewrite F1, F2, app_assoc; reflexivity|rewrite app_length; lia]|]. split; [congruence|auto].
  Qed.
  Lemma reaches_call calls o q next : match q with UseLayer k _ => layer_by calls k <> [] | _ => True end -> suitable calls q -> (forall x, asks calls q = Some x -> warm x) ->
    reaches 1 calls (Calling o q next) (calls ++ [(o, q)]) (next (right calls o q)).
  Proof.
    intros H1 H2 H3. split; [eauto|]. split; [exists [right calls o q]; split; [reflexivity|cbn; lia]|]. split; [reflexivity|]. intros H. cbn. auto.
  Qed.

  Lemma layer_by_in calls more k l : layer_by calls k = [l] -> layer_by (calls ++ more) k = [l].
  Proof.
    intros H. rewrite layer_by_app; [exact H|]. unfold SpecCrowd.layer_by in H. destruct (nth_error calls k) eqn:E; [|discriminate]. apply nth_error_Some. congruence.
  Qed.
  Lemma inner_by_app calls more f i L : inner_by calls f i L -> inner_by (calls ++ more) f i L.
  Proof. destruct i, L; cbn; try contradiction; [apply layer_by_in|trivial]. Qed.
  Lemma mix_by_app calls more s l : mix_by calls s l -> mix_by (calls ++ more) s l.
  Proof. intros (H1 & H2 & H3 & H4). repeat split; [exact H1|exact H2|apply inner_by_app, H3|apply inner_by_app, H4]. Qed.

  Lemma inner_making o f pat calls next :
    exists calls', reaches 1 calls (making_inner o f pat (length calls) next) calls'
      (match inner_layer U o pat with
       | Ok L => next (Ok (match pat with Some _ => Some (length calls) | None => None end)) (length calls')
       | Err e => next (Err e) (length calls')
       end) /\
      forall L, inner_layer U o pat = Ok L -> inner_by calls' f (match pat with Some _ => Some (length calls) | None => None end) L.
  Proof.
    destruct pat as [[p lengths]|]; cbn [making_inner inner_layer].
    - exists (calls ++ [(o, MakeRearrange (is_torch f) p lengths)]).
      pose proof (reaches_call calls o (MakeRearrange (is_torch f) p lengths)
        (fun a => next (match a with GotLayer (Ok _) => Ok (Some (length calls)) | GotLayer (Err e) => Err e | _ => Err RuntimeError end) (S (length calls))) I I) as H.
      rewrite app_length, Nat.add_1_r. unfold SpecCrowd.right in H. cbn [answer_to fst] in H.
      split.
      + destruct (Rearrange U (fun _ => o) p lengths) as [L|e]; cbn [bind made fst] in *; apply H; discriminate.
      + intros L E. destruct (Rearrange U (fun _ => o) p lengths) as [L0|e] eqn:ER; cbn [bind] in E; [|discriminate]. injection E as <-. cbn.
        unfold SpecCrowd.layer_by. rewrite nth_error_app2, Nat.sub_diag by lia. cbn [nth_error answer_to]. rewrite ER. reflexivity.
    - exists calls. split; [apply reaches_refl|]. intros L E. injection E as <-. exact I.
  Qed.
  Lemma inner_using o f i L x calls next : inner_by calls f i L -> fw_of (o_type x) = Some f -> warm x ->
    exists calls', reaches 1 calls (using_inner o i x (length calls) next) calls' (next (call_option (rtm library f o) L (o_data x)) (length calls')).
  Proof.
    intros H Hf Hw. destruct i as [k|], L as [L|]; cbn [SpecMixTeam.inner_by using_inner call_option] in *; try contradiction.
    2:{ exists calls. apply reaches_refl. }
    exists (calls ++ [(o, UseLayer k x)]). rewrite app_length, Nat.add_1_r.
    pose proof (reaches_call calls o (UseLayer k x) (fun a => next (match a with GotOutcome (OutTensor v) => v | _ => Err RuntimeError end) (S (length calls)))) as X.
    cbn [SpecCrowd.right SpecCrowd.suitable SpecCrowd.asks] in X. rewrite H in X. cbn [answer_to nth_error fst] in X. unfold known in X. rewrite Hf in X. apply X.
    - discriminate.
    - intros torch L' [E|[]]. injection E as <- <-. destruct f; cbn; split; congruence.
    - intros y. destruct (match _ with (true, _) :: _ => _ | _ => _ end) eqn:E; [|discriminate]. intros E'. injection E' as <-.
      destruct (SpecCrowd.layer_by _ _ _ (fun _ => None) _ _) as [|[[|] ?] ?] in E; try discriminate; injection E as <-; exact Hw.
  Qed.

  Lemma mix_making o o' f (p : pystr) w b sizes calls next : exists calls',
    match EinMix U (fun _ => o) (fun _ => o') p w b sizes with
    | Ok M => exists sm, reaches 2 calls (making_mix U o o' f p w b sizes (length calls) next) calls' (next (Ok (shapes_of M, sm)) (length calls')) /\ mix_by calls' sm (f, M)
    | Err e => reaches 2 calls (making_mix U o o' f p w b sizes (length calls) next) calls' (next (Err e) (length calls'))
    end.
  Proof.
    unfold EinMix, making_mix.
    destruct (check_kwargs [lit "self"; lit "pattern"; lit "weight_shape"; lit "bias_shape"] sizes) as [u|e]; cbn [bind]; [|exists calls; apply reaches_refl].
    unfold initialize_einmix. destruct (einmix_parse U p w) as [[[[[[lp rp] lft] rght] weight] free]|e]; cbn [bind]; [|exists calls; apply reaches_refl].
    rewrite layers_inner. fold (of_post (post_reshape rp rght)).
    match goal with |- context [making_inner o f (pre_reshape lp lft sizes) (length calls) ?g] => set (k1 := g) end.
    destruct (inner_making o f (pre_reshape lp lft sizes) calls k1) as (calls1 & R1 & I1).
    destruct (inner_layer U o (pre_reshape lp lft sizes)) as [pre|e]; cbn [bind].
    2:{ exists calls1. apply (reaches_trans 1 1 _ _ calls1 (k1 (Err e) (length calls1)) _ _ R1). apply reaches_refl. }
    specialize (I1 pre eq_refl). unfold k1 in R1 at 2. cbn beta iota in R1.
    match type of R1 with context [making_inner o' f (of_post (post_reshape rp rght)) (length calls1) ?g] => set (k2 := g) in R1 end.
    destruct (inner_making o' f (of_post (post_reshape rp rght)) calls1 k2) as (calls2 & R2 & I2).
    pose proof (reaches_trans _ _ _ _ _ _ _ _ R1 R2) as R0. cbn [Nat.add] in R0. exists calls2.
    destruct (inner_layer U o' (of_post (post_reshape rp rght))) as [post|e]; cbn [bind].
    2:{ exact R0. }
    specialize (I2 post eq_refl). unfold k2 in R0. cbn beta iota delta [bind] in R0. unfold finish_mix in R0.
    destruct (einmix_check lft rght weight sizes); cbn [bind] in *; [|exact R0].
    destruct (weight_lengths weight sizes) as [wl|]; cbn [bind] in *; [|exact R0].
    destruct (fan_in rght weight sizes) as [fi|]; cbn [bind] in *; [|exact R0].
    destruct (bias_lengths U rght free b sizes) as [bl|]; cbn [bind] in *; [|exact R0].
    destruct (raise_if (fi =? 0)%Z ZeroDivisionError); cbn [bind] in *; [|exact R0].
    destruct (einsum_text lft rght weight) as [text|]; cbn [bind] in *; [|exact R0].
    eexists. split; [exact R0|]. destruct R2 as ((more & E) & _). repeat split; [|exact I2]. cbn [sm_pre em_pre fst snd]. rewrite E. apply inner_by_app, I1.
  Qed.
  Lemma mix_using o o' f M sm weight bias x calls next : mix_by calls sm (f, M) -> fw_of (o_type x) = Some f -> warm x -> (forall y, warm {| o_type := after (o_type x); o_data := y |}) ->
    exists calls', reaches 2 calls (using_mix lib_einsum iadd after o o' sm weight bias x (length calls) next) calls'
      (next (call_einmix (rtm library f o) (lib_einsum f) (iadd f) M weight bias (o_data x)) (length calls')).
  Proof.
    intros (H1 & H2 & H3 & H4) Hf Hw Hw'. cbn [fst snd] in *. unfold using_mix. rewrite H1, H2.
    match goal with |- context [using_inner o (sm_pre sm) x (length calls) ?g] => set (k1 := g) end.
    destruct (inner_using o f (sm_pre sm) (em_pre M) x calls k1 H3 Hf Hw) as (calls1 & R1). unfold k1 in R1 at 2. unfold call_einmix.
    destruct (call_option (rtm library f o) (em_pre M) (o_data x)) as [input|e]; cbn [bind] in *.
    2:{ exists calls1. eapply (reaches_trans 1 1); [exact R1|apply reaches_refl]. }
    destruct (lib_einsum f (em_einsum M) [input; weight]) as [res|e]; cbn [bind] in *.
    2:{ exists calls1. eapply (reaches_trans 1 1); [exact R1|apply reaches_refl]. }
    destruct (match bias with Some b => iadd f res b | None => Ok res end) as [res'|e]; cbn [bind] in *.
    2:{ exists calls1. eapply (reaches_trans 1 1); [exact R1|apply reaches_refl]. }
    destruct R1 as ((more & E) & R1').
    destruct (inner_using o' f (sm_post sm) (em_post M) {| o_type := after (o_type x); o_data := res' |} calls1 next) as (calls2 & R2).
    - rewrite E. apply inner_by_app, H4.
    - cbn. rewrite Ha. exact Hf.
    - apply Hw'.
    - exists calls2. eapply (reaches_trans 1 1); [split; [exists more; exact E|exact R1']|]. cbn [o_data] in R2.
      replace (call_option (rtm library f o) (em_post M) res') with (call_option (rtm library f o') (em_post M) res') by (destruct (em_post M); reflexivity). exact R2.
  Qed.

  (** ** programs *)
  Definition same_layers calls (i : nat) (c : orders * request A) : Prop := i < length calls /\ layer_by calls i = layers_of c.
  Definition rel calls own plain (sms : list stored_mix) Ms : Prop := Forall2 (same_layers calls) own plain /\ Forall2 (mix_by calls) sms Ms.
  Lemma rel_app calls more own plain sms Ms : rel calls own plain sms Ms -> rel (calls ++ more) own plain sms Ms.
  Proof.
    intros [H1 H2]. split.
    - induction H1 as [|i c own plain [H H'] HF IH]; constructor; [|apply IH]. split; [rewrite app_length; lia|]. rewrite layer_by_app by exact H. exact H'.
    - induction H2 as [|s l sms Ms' H HF IH]; constructor; [apply mix_by_app, H|apply IH].
  Qed.
  Lemma own_layer calls own plain k n : Forall2 (same_layers calls) own plain -> layer_by plain k <> [] -> layer_by calls (nth k own n) = layer_by plain k.
  Proof.
    intros H. revert k. induction H as [|i c own plain (H1 & H2) HF IH]; intros k Hne; [destruct k; contradiction|]. destruct k as [|k]; [|apply IH; exact Hne].
    cbn [nth]. rewrite H2. destruct c. reflexivity.
  Qed.
  Lemma mix_stored calls sms Ms k : Forall2 (mix_by calls) sms Ms ->
    match nth_error Ms k with Some l => exists s, nth_error sms k = Some s /\ mix_by calls s l | None => nth_error sms k = None end.
  Proof. intros H. revert k. induction H as [|s l sms Ms' H HF IH]; intros [|k]; cbn; [reflexivity|reflexivity|eauto|apply IH]. Qed.

  Definition arrives calls p plain Ms (mp : mix_script A R) : Prop :=
    well_behaved calls p /\ outcome_alone calls p = mix_alone U fw_of library lib_einsum iadd plain Ms mp /\
    length (alone calls p) <= mix_calls U fw_of library lib_einsum iadd plain Ms mp.
  Lemma reached n calls p calls' p' r k plain Ms mp : reaches n calls p calls' p' -> arrives calls' p' plain Ms mp ->
    mix_alone U fw_of library lib_einsum iadd plain Ms mp = r -> n + mix_calls U fw_of library lib_einsum iadd plain Ms mp <= k ->
    well_behaved calls p /\ outcome_alone calls p = r /\ length (alone calls p) <= k.
  Proof.
    intros (_ & (as_ & F & L) & O & W) (V1 & V2 & V3) <- Hk. split; [apply W, V1|]. split; [congruence|]. rewrite F, app_length. lia.
  Qed.
  Lemma compiled_right mp : forall calls own plain sms Ms, rel calls own plain sms Ms ->
    mix_behaved U fw_of library lib_einsum iadd after warm plain Ms mp ->
    arrives calls (compiled U lib_einsum iadd after mp (length calls) own sms) plain Ms mp.
  Proof.
    induction mp as [r|o q next IH|o o' f p w b sizes next IH|o o' k weight bias x next IH]; intros calls own plain sms Ms Hr Hb.
    - split; [exact I|]. split; [reflexivity|]. cbn. lia.
    - cbn [mix_behaved compiled] in *. destruct Hb as (H1 & H2 & H3 & H4). set (q' := match q with UseLayer k x => _ | _ => q end).
      assert (E : (match q' with UseLayer k _ => layer_by calls k <> [] | _ => True end) /\ suitable calls q' /\ asks calls q' = asks plain q /\ right calls o q' = right plain o q /\
        snd (answer_to U fw_of library lib_einsum o q' []) = snd (answer_to U fw_of library lib_einsum o q [])).
      { unfold q'. destruct q; try (repeat split; exact I). pose proof (own_layer calls own plain k (length calls) (proj1 Hr) H1) as E. rewrite E. split; [exact H1|].
        split; [unfold SpecCrowd.suitable; rewrite E; exact H2|]. split; [|split; [|reflexivity]].
        - unfold SpecCrowd.asks. rewrite !(layer_by_any U library lib_einsum (fun _ => None) fw_of), E. reflexivity.
        - unfold SpecCrowd.right. rewrite E. reflexivity. }
      clearbody q'. destruct E as (E1 & E2 & E3 & E4 & E5).
      assert (H3' : forall x, asks calls q' = Some x -> warm x) by (rewrite E3; exact H3).
      unfold arrives. cbn [mix_alone mix_calls].
      eapply (reached 1 calls _ _ _ _ _ (plain ++ [(o, q)]) Ms (next (right plain o q)) (reaches_call calls o q' _ E1 E2 H3')); [|reflexivity|cbn; lia]. cbn beta.
      rewrite E4. replace (S (length calls)) with (length (calls ++ [(o, q')])) by (rewrite app_length; cbn; lia). apply IH; [|exact H4].
      destruct Hr as [R1 R2]. destruct (rel_app calls [(o, q')] own plain sms Ms (conj R1 R2)) as [R1' R2']. split; [|exact R2'].
      apply Forall2_app; [exact R1'|]. constructor; [|constructor]. split; [rewrite app_length; cbn; lia|].
      unfold SpecCrowd.layer_by. rewrite nth_error_app2, Nat.sub_diag by lia. cbn [nth_error fst snd]. exact E5.
    - cbn [mix_behaved compiled] in *.
      match goal with |- context [making_mix U o o' f p w b sizes (length calls) ?g] => set (g0 := g) end.
      destruct (mix_making o o' f p w b sizes calls g0) as (calls' & H). unfold arrives. cbn [mix_alone mix_calls].
      destruct (EinMix U (fun _ => o) (fun _ => o') p w b sizes) as [M|e].
      + destruct H as (sm & R1 & Hm). pose proof R1 as ((more & E) & _). eapply (reached 2 calls _ _ _ _ _ plain (Ms ++ [(f, M)]) (next (Ok (shapes_of M))) R1); [|reflexivity|cbn; lia]. unfold g0. cbn beta iota. apply IH; [|exact Hb].
        rewrite E. destruct (rel_app calls more own plain sms Ms Hr) as [K1 K2]. split; [exact K1|]. apply Forall2_app; [exact K2|]. constructor; [rewrite <- E; exact Hm|constructor].
      + pose proof H as ((more & E) & _). eapply (reached 2 calls _ _ _ _ _ plain Ms (next (Err e)) H); [|reflexivity|cbn; lia]. unfold g0. cbn beta iota. apply IH; [|exact Hb]. rewrite E. apply rel_app, Hr.
    - cbn [mix_behaved compiled] in *. destruct Hb as (H1 & H2 & H3 & H4). pose proof (mix_stored calls sms Ms k (proj2 Hr)) as Hk. unfold arrives. cbn [mix_alone mix_calls]. unfold mix_call in *.
      destruct (nth_error Ms k) as [[f M]|] eqn:Ek.
      + destruct Hk as (sm & -> & Hm).
        match goal with |- context [using_mix lib_einsum iadd after o o' sm weight bias x (length calls) ?g] => set (g0 := g) end.
        destruct (mix_using o o' f M sm weight bias x calls g0 Hm (H1 f M eq_refl) H2 H3) as (calls' & R1). pose proof R1 as ((more & E) & _).
        eapply (reached 2 calls _ _ _ _ _ plain Ms (next _) R1); [|reflexivity|cbn; lia]. unfold g0. cbn beta iota. apply IH; [|exact H4]. rewrite E. apply rel_app, Hr.
      + rewrite Hk. eapply (reached 2 calls _ _ _ _ _ plain Ms (next (Err IndexError)) (reaches_refl 2 calls _)); [|reflexivity|cbn; lia]. apply IH; [exact Hr|exact H4].
  Qed.

  Lemma making_decent o f pat n next : orders_ok o -> (forall q sizes, pat = Some (q, sizes) -> NoDup (map fst sizes)) -> (forall v m, decent_script (next v m)) -> decent_script (making_inner (A := A) (R := R) o f pat n next).
  Proof. intros Ho Hn H. destruct pat as [[q sizes]|]; cbn; [|apply H]. split; [exact Ho|]. split; [apply (Hn q sizes eq_refl)|]. intros a. apply H. Qed.
  Lemma using_decent o i (x : object A) n next : orders_ok o -> (forall v m, decent_script (next v m)) -> decent_script (using_inner (R := R) o i x n next).
  Proof. intros Ho H. destruct i as [k|]; cbn; [|apply H]. split; [exact Ho|]. split; [exact I|]. intros a. apply H. Qed.
  Lemma compiled_decent mp : mix_decent mp -> forall n own sms, decent_script (compiled (A := A) (R := R) U lib_einsum iadd after mp n own sms).
  Proof.
    induction mp as [r|o q next IH|o o' f p w b sizes next IH|o o' k weight bias x next IH]; intros Hd n own sms; cbn [mix_decent compiled] in *.
    - exact I.
    - destruct Hd as (Ho & Hq & Hd). cbn. split; [exact Ho|]. split; [destruct q; exact Hq|]. intros a. apply IH, Hd.
    - destruct Hd as (Ho & Ho' & Hn & Hd).
      assert (K : forall (r : result (list Z * option (list Z) * Z * stored_mix)) m, decent_script (match r with Ok (v, M) => compiled U lib_einsum iadd after (next (Ok v)) m own (sms ++ [M]) | Err e => compiled U lib_einsum iadd after (next (Err e)) m own sms end)).
      { intros [[v M]|e] m; apply IH, Hd. }
      unfold making_mix. destruct (let* _ := _ in _) as [[[[[[lp rp] lft] rght] weight] free]|e]; [|apply (K (Err e))].
      apply making_decent; [exact Ho| |].
      + intros q s E. unfold pre_reshape in E. destruct (any_composed lft); [|discriminate]. injection E as _ <-. apply filter_names, Hn.
      + intros [pre|e] m; [|apply (K (Err e))]. apply making_decent; [exact Ho'| |].
        * intros q s E. destruct (post_reshape rp rght); [|discriminate]. injection E as _ <-. constructor.
        * intros v m'. apply K.
    - destruct Hd as (Ho & Ho' & Hd). destruct (nth_error sms k) as [sm|]; [|apply IH, Hd]. unfold using_mix. apply using_decent; [exact Ho|]. intros v m.
      destruct (let* _ := _ in _) as [res|e]; [|apply IH, Hd]. apply using_decent; [exact Ho'|]. intros v' m'. apply IH, Hd.
  Qed.
  Lemma chosen_rel calls own plain sms Ms : chosen calls own plain -> Forall2 (mix_by calls) sms Ms -> rel calls own plain sms Ms.
  Proof.
    intros H1 H2. split; [|exact H2]. unfold chosen in H1. induction H1 as [|i [o q] own plain H HF IH]; constructor; [|exact IH]. split; [apply nth_error_Some; congruence|].
    unfold SpecCrowd.layer_by. rewrite H. reflexivity.
  Qed.
End Alone.

Section Theorems.
  Context {A R : Type} (lim : limits) (U : unicode) (fw_of : nat -> option framework) (build : nat -> bclass -> list pystr -> option exn * list pystr).
  Context (library : framework -> runtime A) (lib_einsum : framework -> pystr -> list (tensor A) -> result (tensor A)).
  Context (iadd : framework -> tensor A -> tensor A -> result (tensor A)) (after : nat -> nat).
  Context (Hb : honest build) (Hlib : libraries_ok U library) (Ha : types_stay fw_of after).
  Notation compiled := (compiled (R := R) U lib_einsum iadd after).
  (** [given]: the calls whose layers the thread gets, [own] those that the program names, [sms] the EinMix layers it gets *)
  Theorem mix_team es0 (starts : list (list nat * script A R)) t given calls mp own plain sms Ms es : decent_events es0 ->
    let s := history lim U fw_of build library lib_einsum es0 nobody in
    (forall own' p', In (own', p') starts -> decent_script p') -> decent_besides es -> nth_error starts t = Some (given, compiled mp (length calls) own sms) -> handed s given calls ->
    chosen calls own plain -> Forall2 (mix_by U fw_of library lib_einsum calls) sms Ms ->
    mix_behaved U fw_of library lib_einsum iadd after (fun x => settled fw_of x (cr_registry s)) plain Ms mp ->
    exists w, nth_error (tm_workers (team_run lim U fw_of build library lib_einsum es {| tm_crowd := s; tm_workers := map (fun c => new_worker (fst c) (snd c)) starts |})) t = Some w /\
      (forall r, w_script w = Over r -> r = mix_alone U fw_of library lib_einsum iadd plain Ms mp) /\
      (71 * mix_calls U fw_of library lib_einsum iadd plain Ms mp <= turns t es -> w_script w = Over (mix_alone U fw_of library lib_einsum iadd plain Ms mp)).
  Proof.
    intros H0 s Hd He Ht Hh Hc Hm Hw.
    destruct (compiled_right U fw_of library lib_einsum iadd after Ha _ mp calls own plain sms Ms (chosen_rel _ _ _ _ _ _ _ _ _ Hc Hm) Hw) as (V1 & V2 & V3).
    destruct (team_facts lim U fw_of build library lib_einsum Hb Hlib es0 starts t given _ calls es H0 Hd He Ht Hh V1) as (w & E & _).
    exists w. split; [exact E|]. split.
    - intros r Er. destruct (team_answers lim U fw_of build library lib_einsum Hb Hlib es0 starts t given _ calls es w H0 Hd He Ht Hh V1 E) as [_ K]. rewrite <- V2. apply K, Er.
    - intros Hn. destruct (team_ends lim U fw_of build library lib_einsum Hb Hlib es0 starts t given _ calls es H0 Hd He Ht Hh V1) as (w' & E' & K & _).
      + fold s. etransitivity; [|exact Hn]. apply Nat.mul_le_mono_l. exact V3.
      + assert (X : Some w = Some w') by (etransitivity; [symmetry; exact E|exact E']). injection X as <-. rewrite <- V2. exact K.
  Qed.
End Theorems.
