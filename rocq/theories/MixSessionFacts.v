(** * Processes with EinMix layers: proofs *)
From Verif Require Import Py Tensor Parsing Recipe Ops Backends Api Packing Einsum Registry SpecGrammar SpecRegistry Cache Layers ListFacts EinMix Session SpecSession SessionFacts MixSession SpecMixSession.

Section Facts.
  Context {A : Type} (lim : limits) (U : unicode) (HU : unicode_ok U).
  Context (fw_of : nat -> option framework) (build : nat -> bclass -> list pystr -> option exn * list pystr).
  Context (library : framework -> runtime A) (lib_einsum : framework -> pystr -> list (tensor A) -> result (tensor A)).
  Context (iadd : framework -> tensor A -> tensor A -> result (tensor A)) (after : nat -> nat).
  Context (Hb : honest build) (Hl : forall f, rt_framework (library f) = f /\ rt_unicode (library f) = U).
  Context (Ha : types_stay fw_of after).
  Notation layers := (list (bool * layer (tensor A))).
  Notation mixes := (list (framework * einmix (tensor A))).
  Notation inv := (inv lim U fw_of build).

  Definition inner_ok (all : layers) (f : framework) (i : option nat) (L : option (layer (tensor A))) : Prop :=
    match i, L with None, None => True | Some k, Some L => nth_error all k = Some (is_torch f, L) | _, _ => False end.
  Definition mix_ok (all : layers) (s : stored_mix) (l : framework * einmix (tensor A)) : Prop :=
    sm_framework s = fst l /\ sm_einsum s = em_einsum (snd l) /\
    inner_ok all (fst l) (sm_pre s) (em_pre (snd l)) /\ inner_ok all (fst l) (sm_post s) (em_post (snd l)).
  Definition minv (ms : list pystr) (ls : layers) (Ms : mixes) (mp : mix_process A) : Prop :=
    exists all, inv ms all (mp_process mp) /\ Forall2 (fun i l => nth_error all i = Some l) (mp_own mp) ls /\ Forall2 (mix_ok all) (mp_mixes mp) Ms.

  Lemma nth_error_more {X} (l l' : list X) k x : nth_error l k = Some x -> nth_error (l ++ l') k = Some x.
  Proof. intros H. rewrite nth_error_app1; [exact H|]. apply nth_error_Some. congruence. Qed.
  Lemma inner_more all more f i L : inner_ok all f i L -> inner_ok (all ++ more) f i L.
  Proof. destruct i, L; cbn; try contradiction; [apply nth_error_more|trivial]. Qed.
  Lemma mix_more all more s l : mix_ok all s l -> mix_ok (all ++ more) s l.
  Proof. intros (H1 & H2 & H3 & H4). repeat split; [exact H1|exact H2|apply inner_more, H3|apply inner_more, H4]. Qed.
  Lemma own_more (all more : layers) own ls : Forall2 (fun i l => nth_error all i = Some l) own ls -> Forall2 (fun i l => nth_error (all ++ more) i = Some l) own ls.
  Proof. intros H. induction H as [|i l own ls H HF IH]; constructor; [apply nth_error_more, H|exact IH]. Qed.
  Lemma mixes_more all more ss Ms : Forall2 (mix_ok all) ss Ms -> Forall2 (mix_ok (all ++ more)) ss Ms.
  Proof. intros H. induction H as [|s l ss Ms' H HF IH]; constructor; [apply mix_more, H|exact IH]. Qed.

  Definition inner_layer o (p : option (pystr * list (pystr * Z))) : result (option (layer (tensor A))) :=
    match p with Some (q, sizes) => let* L := Rearrange U (fun _ => o) q sizes in Ok (Some L) | None => Ok None end.
  Definition of_post (p : option pystr) : option (pystr * list (pystr * Z)) := match p with Some q => Some (q, []) | None => None end.
  Lemma layers_inner o o' pre post : rearrange_layers U (fun _ => o) (fun _ => o') pre post =
    let* a := inner_layer o pre in let* b := inner_layer o' (of_post post) in Ok (a, b).
  Proof. destruct pre as [[p s]|], post; reflexivity. Qed.

  Lemma inner_made ms all st o f p : inv ms all st -> orders_ok o -> (forall q sizes, p = Some (q, sizes) -> NoDup (map fst sizes)) ->
    exists more, match inner_layer o p with
      | Ok L => exists i st', make_inner lim U o f p st = (Ok i, st') /\ inv ms (all ++ more) st' /\ inner_ok (all ++ more) f i L
      | Err e => exists st', make_inner lim U o f p st = (Err e, st') /\ inv ms (all ++ more) st'
      end.
  Proof.
    intros Hi Ho Hn. destruct p as [[q sizes]|]; cbn [make_inner inner_layer].
    - destruct (make_right lim U HU fw_of build ms all st o (is_torch f) [lit "self"; lit "pattern"] q (RStr s_rearrange) None sizes Hi Ho (Hn q sizes eq_refl))
        as (st' & E & Hi'); [discriminate|]. fold (Rearrange (T := tensor A) U (fun _ => o) q sizes) in Hi'.
      unfold Rearrange in *. destruct (check_kwargs [lit "self"; lit "pattern"] sizes) as [u|e]; cbn [bind] in *.
      + destruct (make_layer U (fun _ => o) q (RStr s_rearrange) sizes) as [L|e]; cbn [bind] in *.
        * exists [(is_torch f, L)]. rewrite E. do 2 eexists. split; [reflexivity|]. split; [exact Hi'|]. cbn.
          rewrite (Forall2_length _ _ _ (i_layers _ _ _ _ _ _ _ Hi)), nth_error_app2, Nat.sub_diag by lia. reflexivity.
        * exists []. rewrite app_nil_r, E. eauto.
      + exists []. rewrite app_nil_r, E. eauto.
    - exists []. rewrite app_nil_r. do 2 eexists. split; [reflexivity|]. split; [exact Hi|exact I].
  Qed.
  Lemma inner_used ms all st o f i L x : inv ms all st -> orders_ok o -> present fw_of ms x -> fw_of (o_type x) = Some f -> inner_ok all f i L ->
    exists st', use_inner lim fw_of build library o i x st = (call_option (rtm library f o) L (o_data x), st') /\ inv ms all st'.
  Proof.
    intros Hi Ho Hp Hf H. destruct i as [k|], L as [L|]; cbn [inner_ok use_inner call_option] in *; try contradiction; [|eauto].
    destruct (use_right lim U HU fw_of build library Hb Hl ms all st o k x Hi Ho Hp) as (st' & E & Hi').
    { intros torch L' E. rewrite H in E. injection E as <- <-. rewrite Hf. destruct f; cbn; split; congruence. }
    rewrite E, H. unfold known. rewrite Hf. eauto.
  Qed.

  Lemma filter_names (b : pystr * Z -> bool) sizes : NoDup (map fst sizes) -> NoDup (map fst (filter b sizes)).
  Proof.
    induction sizes as [|s sizes IH]; intros H; [exact H|]. cbn in *. inversion H as [|? ? H1 H2]; subst. destruct (b s); [|apply IH, H2].
    cbn. constructor; [|apply IH, H2]. intros Hin. apply H1. apply in_map_iff in Hin as (y & E & Hy). apply filter_In in Hy as [Hy _]. rewrite <- E. apply in_map, Hy.
  Qed.

  Lemma make_mix_right ms ls Ms mp o o' f p w b sizes : minv ms ls Ms mp -> orders_ok o -> orders_ok o' -> NoDup (map fst sizes) ->
    match EinMix U (fun _ => o) (fun _ => o') p w b sizes with
    | Ok M => exists mp', do_make_mix lim U o o' f p w b sizes mp = (Ok (em_weight M, em_bias M, em_fan_in M), mp') /\ minv ms ls (Ms ++ [(f, M)]) mp'
    | Err e => exists mp', do_make_mix lim U o o' f p w b sizes mp = (Err e, mp') /\ minv ms ls Ms mp'
    end.
  Proof.
    intros Hm Ho Ho' Hn. pose proof Hm as (all & Hi & Hw & HM). unfold EinMix, do_make_mix.
    destruct (check_kwargs [lit "self"; lit "pattern"; lit "weight_shape"; lit "bias_shape"] sizes) as [u|e]; cbn [bind]; [|eauto].
    unfold initialize_einmix. destruct (einmix_parse U p w) as [[[[[[lp rp] lft] rght] weight] next]|e]; cbn [bind]; [|eauto].
    rewrite layers_inner. fold (of_post (post_reshape rp rght)).
    destruct (inner_made ms all (mp_process mp) o f (pre_reshape lp lft sizes) Hi Ho) as (more & H1).
    { intros q s E. unfold pre_reshape in E. destruct (any_composed lft); [|discriminate]. injection E as _ <-. apply filter_names, Hn. }
    apply (own_more _ more) in Hw. apply (mixes_more _ more) in HM.
    destruct (inner_layer o (pre_reshape lp lft sizes)) as [pre|e]; cbn [bind].
    2:{ destruct H1 as (st' & E & Hi'). rewrite E. eexists. split; [reflexivity|]. exists (all ++ more). split; [exact Hi'|]. split; [exact Hw|exact HM]. }
    destruct H1 as (i & st1 & E & Hi1 & Hpre). rewrite E. clear E.
    destruct (inner_made ms (all ++ more) st1 o' f (of_post (post_reshape rp rght)) Hi1 Ho') as (more' & H2).
    { intros q s X. destruct (post_reshape rp rght); [|discriminate]. injection X as _ <-. constructor. }
    apply (own_more _ more') in Hw. apply (mixes_more _ more') in HM. apply (inner_more _ more') in Hpre.
    destruct (inner_layer o' (of_post (post_reshape rp rght))) as [post|e]; cbn [bind].
    2:{ destruct H2 as (st' & E & Hi'). rewrite E. eexists. split; [reflexivity|]. exists ((all ++ more) ++ more'). split; [exact Hi'|]. split; [exact Hw|exact HM]. }
    destruct H2 as (i' & st2 & E & Hi2 & Hpost). rewrite E. clear E.
    assert (Hrest : minv ms ls Ms {| mp_process := st2; mp_own := mp_own mp; mp_mixes := mp_mixes mp |}).
    { exists ((all ++ more) ++ more'). split; [exact Hi2|]. split; [exact Hw|exact HM]. }
    unfold finish_mix.
    destruct (einmix_check lft rght weight sizes); cbn [bind]; [|eauto].
    destruct (weight_lengths weight sizes) as [wl|]; cbn [bind]; [|eauto].
    destruct (fan_in rght weight sizes) as [fi|]; cbn [bind]; [|eauto].
    destruct (bias_lengths U rght next b sizes) as [bl|]; cbn [bind]; [|eauto].
    destruct (raise_if (fi =? 0)%Z ZeroDivisionError); cbn [bind]; [|eauto].
    destruct (einsum_text lft rght weight) as [text|]; cbn [bind]; [|eauto].
    eexists. split; [reflexivity|]. exists ((all ++ more) ++ more'). split; [exact Hi2|]. split; [exact Hw|]. cbn. apply Forall2_app; [exact HM|].
    constructor; [|constructor]. repeat split; assumption.
  Qed.

  Lemma mix_found all ss Ms k : Forall2 (mix_ok all) ss Ms ->
    match nth_error Ms k with Some l => exists s, nth_error ss k = Some s /\ mix_ok all s l | None => nth_error ss k = None end.
  Proof. intros H. revert k. induction H as [|s l ss Ms' H HF IH]; intros [|k]; cbn; [reflexivity|reflexivity|eauto|apply IH]. Qed.
  Lemma orders_same f o o' L x : orders_ok o -> orders_ok o' -> call_option (rtm library f o) L x = call_option (rtm library f o') L x.
  Proof. intros _ _. destruct L; reflexivity. Qed.

  Lemma use_mix_right ms ls Ms mp o o' k weight bias x : minv ms ls Ms mp -> orders_ok o -> orders_ok o' -> present fw_of ms x ->
    (forall f M, nth_error Ms k = Some (f, M) -> fw_of (o_type x) = Some f) ->
    exists mp', do_use_mix lim fw_of build library lib_einsum iadd after o o' k weight bias x mp =
      (match nth_error Ms k with
       | Some (f, M) => call_einmix (rtm library f o) (lib_einsum f) (iadd f) M weight bias (o_data x)
       | None => Err IndexError
       end, mp') /\ minv ms ls Ms mp'.
  Proof.
    intros Hm Ho Ho' Hp Hf. pose proof Hm as (all & Hi & Hw & HM). unfold do_use_mix. pose proof (mix_found all _ _ k HM) as Hk.
    destruct (nth_error Ms k) as [[f M]|]; [|rewrite Hk; eauto]. destruct Hk as (s & -> & H1 & H2 & H3 & H4). cbn [fst snd] in *. specialize (Hf f M eq_refl). rewrite H1, H2.
    destruct (inner_used ms all (mp_process mp) o f _ _ x Hi Ho Hp Hf H3) as (st1 & E & Hi1). rewrite E. clear E. unfold call_einmix.
    assert (K : forall st, inv ms all st -> minv ms ls Ms {| mp_process := st; mp_own := mp_own mp; mp_mixes := mp_mixes mp |}) by (intros st Hst; exists all; auto).
    destruct (call_option (rtm library f o) (em_pre M) (o_data x)) as [input|e]; cbn [bind]; [|eauto].
    destruct (lib_einsum f (em_einsum M) [input; weight]) as [res|e]; cbn [bind]; [|eauto].
    destruct (match bias with Some b => iadd f res b | None => Ok res end) as [res'|e]; cbn [bind]; [|eauto].
    assert (Hp' : present fw_of ms {| o_type := after (o_type x); o_data := res' |}).
    { unfold present in *. cbn. rewrite Ha. exact Hp. }
    assert (Hf' : fw_of (o_type {| o_type := after (o_type x); o_data := res' |}) = Some f) by (cbn; rewrite Ha; exact Hf).
    destruct (inner_used ms all st1 o' f _ _ _ Hi1 Ho' Hp' Hf' H4) as (st2 & E & Hi2).
    rewrite E. cbn [o_data]. eexists. split; [f_equal; apply (orders_same f o' o); assumption|apply K, Hi2].
  Qed.

  Lemma own_found (all : layers) own ls k : Forall2 (fun i l => nth_error all i = Some l) own ls -> nth_error all (nth k own (length all)) = nth_error ls k.
  Proof.
    intros H. revert k. induction H as [|i l own ls H HF IH]; intros [|k]; cbn; [| |exact H|apply IH]; apply nth_error_None; lia.
  Qed.

  Lemma plain_right ms ls Ms mp h : minv ms ls Ms mp -> proper_happening fw_of h ms ls ->
    exists a ms' ls' mp', answer_for U fw_of library lib_einsum h ms ls = (a, ms', ls') /\
      mix_happen lim U fw_of build library lib_einsum iadd after (Plainly h) mp = (GotAnswer a, mp') /\ minv ms' ls' Ms mp'.
  Proof.
    intros (all & Hi & Hw & HM) Hh. pose proof (Forall2_length _ _ _ (i_layers _ _ _ _ _ _ _ Hi)) as El.
    assert (Hu : forall k, nth_error all (nth k (mp_own mp) (length (pr_layers (mp_process mp)))) = nth_error ls k) by (intros k; rewrite El; apply own_found, Hw).
    assert (Hh' : proper_happening fw_of (own_happening mp h) ms all).
    { destruct h as [| |o q]; cbn in *; [exact I|exact I|]. destruct Hh as [Ho Hq]. split; [exact Ho|]. destruct q; cbn in *; try exact Hq. rewrite Hu. exact Hq. }
    destruct (happening_right lim U HU fw_of build library lib_einsum Hb Hl ms all (mp_process mp) _ Hi Hh') as (a & ms' & all' & st' & E1 & E2 & Hi').
    cbn [mix_happen]. rewrite E2.
    assert (Same : forall ms1, answer_for U fw_of library lib_einsum h ms ls = (a, ms1, ls) -> ms' = ms1 -> all' = all -> (forall u, a <> GotLayer (Ok u)) ->
      exists a0 ms0 ls0 mp0, answer_for U fw_of library lib_einsum h ms ls = (a0, ms0, ls0) /\
        (GotAnswer a, {| mp_process := st'; mp_own := match a with GotLayer (Ok _) => mp_own mp ++ [length (pr_layers (mp_process mp))] | _ => mp_own mp end; mp_mixes := mp_mixes mp |}) = (GotAnswer a0, mp0) /\ minv ms0 ls0 Ms mp0).
    { intros ms1 Ea -> -> Hne. do 4 eexists. split; [exact Ea|]. split; [reflexivity|]. exists all. split; [exact Hi'|]. split; [|exact HM]. cbn.
      destruct a as [v|v|[u|e]|]; try exact Hw. destruct (Hne u eq_refl). }
    assert (Made : forall torch m, answer_for U fw_of library lib_einsum h ms ls = (let '(a, l) := made torch m ls in (a, ms, l)) ->
      (let '(a, l) := made torch m all in (a, ms, l)) = (a, ms', all') ->
      exists a0 ms0 ls0 mp0, answer_for U fw_of library lib_einsum h ms ls = (a0, ms0, ls0) /\
        (GotAnswer a, {| mp_process := st'; mp_own := match a with GotLayer (Ok _) => mp_own mp ++ [length (pr_layers (mp_process mp))] | _ => mp_own mp end; mp_mixes := mp_mixes mp |}) = (GotAnswer a0, mp0) /\ minv ms0 ls0 Ms mp0).
    { intros torch m Ea Eb. destruct m as [L|e]; cbn [made] in *; injection Eb as <- <- <-.
      - do 4 eexists. split; [exact Ea|]. split; [reflexivity|]. exists (all ++ [(torch, L)]). split; [exact Hi'|]. split; [|apply mixes_more, HM]. cbn.
        apply Forall2_app; [apply own_more, Hw|]. constructor; [|constructor]. rewrite El, nth_error_app2, Nat.sub_diag by lia. reflexivity.
      - do 4 eexists. split; [exact Ea|]. split; [reflexivity|]. exists all. split; [exact Hi'|]. split; [exact Hw|exact HM]. }
    destruct h as [m|b1 b2 b3 b4|o q]; cbn [answer_for own_happening] in E1.
    - injection E1 as <- <- <-. eapply Same; [reflexivity|reflexivity|reflexivity|discriminate].
    - injection E1 as <- <- <-. eapply Same; [reflexivity|reflexivity|reflexivity|discriminate].
    - destruct q; cbn [answer_to own_request] in E1;
        try (injection E1 as <- <- <-; eapply Same; [reflexivity|reflexivity|reflexivity|discriminate]).
      + eapply Made; [reflexivity|exact E1].
      + eapply Made; [reflexivity|exact E1].
      + rewrite Hu in E1. injection E1 as <- <- <-. eapply Same; [reflexivity|reflexivity|reflexivity|discriminate].
  Qed.

  Lemma mix_happening_right ms ls Ms mp h : minv ms ls Ms mp -> proper_mix fw_of h ms ls Ms ->
    exists a ms' ls' Ms' mp', mix_answer_for U fw_of library lib_einsum iadd h ms ls Ms = (a, ms', ls', Ms') /\
      mix_happen lim U fw_of build library lib_einsum iadd after h mp = (a, mp') /\ minv ms' ls' Ms' mp'.
  Proof.
    intros Hm Hh. destruct h as [h|o o' f p w b sizes|o o' k weight bias x]; cbn [proper_mix mix_answer_for] in *.
    - destruct (plain_right ms ls Ms mp h Hm Hh) as (a & ms' & ls' & mp' & E1 & E2 & H). rewrite E1, E2. eauto 10.
    - destruct Hh as (Ho & Ho' & _ & Hn). pose proof (make_mix_right ms ls Ms mp o o' f p w b sizes Hm Ho Ho' Hn) as H. cbn [mix_happen].
      destruct (EinMix U (fun _ => o) (fun _ => o') p w b sizes) as [M|e]; destruct H as (mp' & E & H); rewrite E; eauto 10.
    - destruct Hh as (Ho & Ho' & Hp & Hf). destruct (use_mix_right ms ls Ms mp o o' k weight bias x Hm Ho Ho' Hp Hf) as (mp' & E & H). cbn [mix_happen]. rewrite E. eauto 10.
  Qed.
  Lemma mix_program_right p : forall ms ls Ms mp, minv ms ls Ms mp -> proper_mix_program U fw_of library lib_einsum iadd p ms ls Ms ->
    run_mix lim U fw_of build library lib_einsum iadd after p mp = right_mix U fw_of library lib_einsum iadd p ms ls Ms.
  Proof.
    induction p as [|h next IH]; intros ms ls Ms mp Hm Hp; [reflexivity|]. cbn [run_mix right_mix proper_mix_program] in *. destruct Hp as [Hh Hp].
    destruct (mix_happening_right ms ls Ms mp h Hm Hh) as (a & ms' & ls' & Ms' & mp' & Ea & Eh & Hm'). rewrite Ea in *. rewrite Eh. f_equal. apply (IH a ms' ls' Ms'); assumption.
  Qed.
  Lemma minv_new : minv [] [] [] new_mix_process.
  Proof. exists []. split; [apply inv_new|]. split; constructor. Qed.
End Facts.

Lemma mix_session_right {A} lim U fw_of build (library : framework -> runtime A) lib_einsum iadd after (p : mix_program A) :
  honest build -> libraries_ok U library -> types_stay fw_of after -> proper_mix_program U fw_of library lib_einsum iadd p [] [] [] ->
  run_mix lim U fw_of build library lib_einsum iadd after p new_mix_process = right_mix U fw_of library lib_einsum iadd p [] [] [].
Proof. intros Hb [HU Hl] Ha Hp. apply mix_program_right; try assumption. apply minv_new. Qed.

Section Later.
  Context {A : Type} (U : unicode) (fw_of : nat -> option framework) (library : framework -> runtime A).
  Context (lib_einsum : framework -> pystr -> list (tensor A) -> result (tensor A)) (iadd : framework -> tensor A -> tensor A -> result (tensor A)).
  Lemma later_right hs o o' weight bias x f M : forall ms ls Ms d,
    last (right_mix U fw_of library lib_einsum iadd (fold_right (fun h p => MixThen h (fun _ => p)) (MixThen (UseMix o o' 0 weight bias x) (fun _ => MixStop)) hs) ms ls ((f, M) :: Ms)) d
    = GotTensor (call_einmix (rtm library f o) (lib_einsum f) (iadd f) M weight bias (o_data x)).
  Proof.
    induction hs as [|h hs IH]; intros ms ls Ms d; [reflexivity|]. cbn [fold_right right_mix].
    destruct (mix_answer_for U fw_of library lib_einsum iadd h ms ls ((f, M) :: Ms)) as [[[a ms'] ls'] Ms'] eqn:E.
    assert (X : exists rest, Ms' = (f, M) :: rest).
    { destruct h as [h|o1 o2 f1 p w b sizes|o1 o2 k w b y]; cbn [mix_answer_for] in E.
      - destruct (answer_for U fw_of library lib_einsum h ms ls) as [[a0 m0] l0]. injection E as _ _ _ <-. eauto.
      - destruct (EinMix U (fun _ => o1) (fun _ => o2) p w b sizes); injection E as _ _ _ <-; cbn; eauto.
      - injection E as _ _ _ <-. eauto. }
    destruct X as [rest ->]. specialize (IH ms' ls' rest d).
    assert (Y : forall (a : mix_answer A) l, l <> [] -> last (a :: l) d = last l d) by (intros a0 [|b l]; [contradiction|reflexivity]).
    rewrite Y; [exact IH|]. clear. destruct hs as [|h hs]; cbn [fold_right right_mix]; [cbn; discriminate|].
    destruct (mix_answer_for U fw_of library lib_einsum iadd h ms' ls' ((f, M) :: rest)) as [[[b m] l] q]. discriminate.
  Qed.
End Later.
Lemma mix_any_time {A} lim U fw_of build (library : framework -> runtime A) lib_einsum iadd after o o' f p w b sizes M hs o1 o2 weight bias x :
  honest build -> libraries_ok U library -> types_stay fw_of after -> EinMix U (fun _ => o) (fun _ => o') p w b sizes = Ok M ->
  proper_mix_program U fw_of library lib_einsum iadd (mix_history (MakeMix o o' f p w b sizes) hs (UseMix o1 o2 0 weight bias x)) [] [] [] ->
  last (run_mix lim U fw_of build library lib_einsum iadd after (mix_history (MakeMix o o' f p w b sizes) hs (UseMix o1 o2 0 weight bias x)) new_mix_process) (GotAnswer GotNothing)
  = GotTensor (call_einmix (rtm library f o1) (lib_einsum f) (iadd f) M weight bias (o_data x)).
Proof.
  intros Hb Hl Ha HM Hp. rewrite mix_session_right by assumption. unfold mix_history. cbn [right_mix mix_answer_for]. rewrite HM. cbn [app].
  rewrite <- (later_right U fw_of library lib_einsum iadd hs o1 o2 weight bias x f M [] [] [] (GotAnswer GotNothing)).
  match goal with |- last (?a :: ?l) _ = last ?m _ => change m with l; destruct l eqn:E; [|reflexivity] end.
  exfalso. destruct hs as [|h hs]; cbn [fold_right right_mix] in E; [cbn in E; discriminate|].
  destruct (mix_answer_for U fw_of library lib_einsum iadd h [] [] [(f, M)]) as [[[a1 m1] l1] q1]. discriminate.
Qed.
