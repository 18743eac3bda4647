(** * EinMix in memory: libraries whose einsum may return memory in use *)
From Verif Require Import Py Tensor Cache CacheFacts ListFacts TensorFacts SpecElements ElementFacts Parsing Recipe Ops Backends Api Layers EinMix Strides SpecStrides
  SymFacts StrideFacts StrideFacts2 StrideFacts3 StrideFacts4 StrideFacts5 LayerMemory SpecLayerMemory LayerMemoryFacts LayerMemoryFacts2.

Section Store.
  Context {A : Type}.
  Lemma store_shows (mem : memory A) v t t' : NoDup (dat (places v)) -> shows mem v t -> wf t' -> shp t' = shp t ->
    shows (fst (store mem v t')) (snd (store mem v t')) t' /\ forall id, fst (store mem v t') id <> mem id -> a_buf v = Old id.
  Proof.
    intros Hn H Wt Es. destruct (a_buf v) as [id|d] eqn:Eb.
    - unfold store. rewrite Eb. cbn [fst snd]. split.
      + pose proof (shows_wf _ _ _ H) as [Wt0 Es0]. destruct H as [Hl [_ F]]. split; [exact Hl|]. split; [cbn [shp places a_shp]; congruence|].
        rewrite Eb in *. unfold at_place. cbn [contents]. rewrite Nat.eqb_refl. apply store_same.
        * exact Hn.
        * rewrite Wt, Es. rewrite <- Wt0. symmetry. exact (SymFacts.Forall2_len F).
        * apply Forall_forall. intros k Hk. apply In_nth_error in Hk as [n Hk].
          assert (E : exists a, at_place mem (Old id) k a).
          { clear - F Hk. revert n Hk. induction F as [|x y l l' Hxy F IH]; intros [|n] Hk; try discriminate; cbn in Hk; [injection Hk as ->; eauto|eauto]. }
          destruct E as [a [E0 E1]]. split; [exact E0|]. apply nth_error_Some. cbn [contents] in E1. congruence.
      + intros i Hi. destruct (i =? id) eqn:E; [apply Nat.eqb_eq in E; congruence|contradiction].
    - destruct (store_new mem v t t' d Eb Hn H Wt Es) as (E & G & _). rewrite E. split; [exact G|]. intros id Hid. contradiction.
  Qed.
End Store.

Section Call.
  Context {A : Type} (mem : memory A) (nocopy : list nat -> list Z -> list nat -> option (list Z)) (Hnc : nocopy_ok nocopy) (r : runtime A) (ip : bool).
  Context (lib : memory A -> pystr -> list (array A) -> result (array A)) (ref : pystr -> list (tensor A) -> result (tensor A)) (iadd : tensor A -> tensor A -> result (tensor A)).
  Context (Hlib : einsum_shows lib ref) (Hadd : keeps_shape iadd).

  Lemma iadd_values v t b c : shows mem v t -> NoDup (dat (places v)) -> shows mem b c ->
    both (fun p t' => shows (fst p) (snd p) t' /\ forall id, fst p id <> mem id -> a_buf v = Old id) (v_iadd mem ip iadd v b) (iadd t c).
  Proof.
    intros H Hn Hb. unfold v_iadd. rewrite (shows_read _ _ _ H), (shows_read _ _ _ Hb). cbn [bind].
    destruct (iadd t c) as [t'|ex] eqn:E; [|reflexivity]. cbn [bind both]. destruct (Hadd t c t' (proj1 (shows_wf _ _ _ H)) (proj1 (shows_wf _ _ _ Hb)) E) as [Wt Es].
    destruct ip; [eapply store_shows; eauto|]. split; [apply fresh_shows, Wt|]. intros id Hid. exfalso. apply Hid. reflexivity.
  Qed.

  Lemma olayers_anywhere (mem' : memory A) (L : option (layer (array A))) (L' : option (layer (tensor A))) : named L -> olayers_show mem L L' -> olayers_show mem' L L'.
  Proof.
    unfold olayers_show. destruct L as [L|], L' as [L'|]; intros Hnm H; auto. destruct (Hnm L eq_refl) as [s Hs].
    destruct H as (H1 & H2 & H3). split; [exact H1|]. split; [exact H2|]. rewrite Hs in *. destruct (ly_red L'); exact H3.
  Qed.

  Lemma einmix_values M M' w w' b b' x x' : mixes_show mem M M' -> named (em_post M) -> shows mem x x' -> shows mem w w' -> option_shows mem b b' ->
    both (fun p y' => shows (fst p) (snd p) y' /\ forall id, fst p id <> mem id -> exists eq vs v, lib mem eq vs = Ok v /\ a_buf v = Old id)
      (v_call_einmix mem nocopy r ip lib iadd M w b x) (call_einmix r ref iadd M' w' b' x').
  Proof.
    intros (Ee & _ & _ & Hpre & Hpost) Hnm Hx Hw Hb. unfold v_call_einmix, call_einmix. rewrite Ee.
    eapply both_bind; [apply (option_values mem nocopy Hnc r _ _ _ _ Hpre Hx)|]. intros i i' Hi.
    assert (HL : both (fun v t => shows mem v t /\ NoDup (dat (places v))) (lib mem (em_einsum M') [i; w]) (ref (em_einsum M') [i'; w'])).
    { apply Hlib. constructor; [exact Hi|constructor; [exact Hw|constructor]]. }
    destruct (lib mem (em_einsum M') [i; w]) as [v|ex] eqn:Ev, (ref (em_einsum M') [i'; w']) as [t|ex']; cbn [both bind] in HL |- *; try contradiction; [|exact HL].
    destruct HL as [Hv Hn].
    apply (both_bind (fun p t' => shows (fst p) (snd p) t' /\ forall id, fst p id <> mem id -> a_buf v = Old id)).
    - destruct b as [b|], b' as [b'|]; cbn in Hb; try contradiction; [apply iadd_values; assumption|]. split; [exact Hv|]. intros id Hid. exfalso. apply Hid. reflexivity.
    - intros [mem' v2] t2 [Hv2 Hd]. cbn [fst snd] in Hv2, Hd. pose proof (option_values mem' nocopy Hnc r _ _ _ _ (olayers_anywhere mem' _ _ Hnm Hpost) Hv2) as HB.
      destruct (v_call_option mem' nocopy r (em_post M) v2) as [y|ex] eqn:Ey, (call_option r (em_post M') t2) as [y'|ex']; cbn in HB |- *; try contradiction; [|exact HB].
      split; [exact HB|]. intros id Hid. exists (em_einsum M'), [i; w], v. split; [exact Ev|apply Hd, Hid].
  Qed.
End Call.

Lemma einmix_call_values {A} (mem : memory A) nocopy (Hnc : nocopy_ok nocopy) (r : runtime A) ip lib ref iadd (Hl : einsum_shows lib ref) (Ha : keeps_shape iadd)
    U os os' pattern wt bt sizes (M : einmix (array A)) (M' : einmix (tensor A)) w w' b b' x x' :
  EinMix U os os' pattern wt bt sizes = Ok M -> EinMix U os os' pattern wt bt sizes = Ok M' -> shows mem x x' -> shows mem w w' -> option_shows mem b b' ->
  both (fun '(mem', y) y' => shows mem' y y' /\ forall id, mem' id <> mem id -> exists eq vs v, lib mem eq vs = Ok v /\ a_buf v = Old id)
    (v_call_einmix mem nocopy r ip lib iadd M w b x) (call_einmix r ref iadd M' w' b' x').
Proof.
  intros HM HM' Hx Hw Hb. pose proof (EinMix_show mem U os os' pattern wt bt sizes) as S. rewrite HM, HM' in S. destruct (EinMix_named _ _ _ _ _ _ _ _ HM) as [_ Hp].
  pose proof (einmix_values mem nocopy Hnc r ip lib ref iadd Hl Ha M M' w w' b b' x x' S Hp Hx Hw Hb) as G.
  destruct (v_call_einmix mem nocopy r ip lib iadd M w b x) as [[mem' y]|e]; exact G.
Qed.
