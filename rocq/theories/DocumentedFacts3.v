(** * EinMix as a linear layer, with or without heads *)
From Coq Require Import Permutation.
From Verif Require Import Py Tensor TensorFacts ListFacts SpecSem SpecGrammar SpecEinsum SpecPattern SpecShape SpecForms SpecOps SpecElements SpecAdjoint SpecLinear SpecDocumented Parsing Compile Recipe Ops Backends Api
  ParseFacts ParseFacts2 ParseFacts3 StepFacts FrontFacts FrontFacts2 FrontFacts3 MainFacts MainFacts2 ReduceFacts MainFacts3 CallFacts RelabelFacts RelabelLaws PackLaws PackLaws2 ApiFacts ApiFacts2 ApiFacts3 RedFacts Laws
  EinsumFacts EinsumFacts3 EinsumFacts4 EinsumLaws EinsumLaws2 AdjointFacts Layers Einsum LayerFacts EinMix SpecEinMix MixFacts MixFacts2 MixFacts3 MixFacts4 MixFacts5 MixFacts6 MixFacts7 MixFacts8 MixFacts9 MixLaws MixLaws2
  SpecMixGrad MixGradFacts SpecMixFuse MixFuseFacts MixFuseFacts2 DocumentedFacts DocumentedFacts2.

Lemma joined_atoms heads s : item_atoms (joined heads s) = map AName (heads ++ [s]).
Proof. destruct heads; reflexivity. Qed.
Lemma map_names_keys (l : list pystr) : flat_map atom_key (map AName l) = l.
Proof. induction l as [|s l IH]; [reflexivity|]. cbn. f_equal. exact IH. Qed.
Lemma nbig_names (l : list pystr) : nbig (map AName l) = 0.
Proof. induction l as [|s l IH]; [reflexivity|]. exact IH. Qed.
Lemma joined_keys b heads s : keys (b ++ [joined heads s]) = keys b ++ heads ++ [s].
Proof. unfold keys, atoms. rewrite flat_map_app, flat_map_app. cbn [flat_map]. rewrite app_nil_r, joined_atoms, map_names_keys. reflexivity. Qed.
Lemma atoms_names_labels d e (l : list pystr) : (forall s, In s l -> s <> ell_name) -> forall k, atoms_labels d e k (map AName l) = map LName l.
Proof.
  induction l as [|s l IH]; intros H k; [reflexivity|]. cbn [map atoms_labels]. rewrite IH by (intros t Ht; apply H; right; exact Ht). unfold atom_labels, stands_for_dots.
  assert (str_eqb s ell_name = false) as ->. { destruct (str_eqb s ell_name) eqn:X; [apply str_eqb_eq in X; exfalso; apply (H s); [left; reflexivity|exact X]|reflexivity]. }
  rewrite andb_false_r. reflexivity.
Qed.
Lemma joined_groups d e k heads s : (forall t, In t (heads ++ [s]) -> t <> ell_name) -> item_groups d e k (joined heads s) = [map LName (heads ++ [s])].
Proof.
  intros H. pose proof (atoms_names_labels d e (heads ++ [s]) H k) as E. destruct heads as [|h hs]; [|cbn [joined item_groups]; rewrite E; reflexivity].
  cbn [joined item_groups stands_for_dots app]. cbn [map app atoms_labels] in E. rewrite app_nil_r in E. rewrite E.
  assert (str_eqb s ell_name = false) as ->. { destruct (str_eqb s ell_name) eqn:X; [apply str_eqb_eq in X; exfalso; apply (H s); [left; reflexivity|exact X]|reflexivity]. }
  rewrite andb_false_r. reflexivity.
Qed.
Lemma joined_side d e k b heads s : ungrouped b -> (forall t, In t (heads ++ [s]) -> t <> ell_name) ->
  groups d e k (b ++ [joined heads s]) = map (fun a => [a]) (labs e b) ++ [map LName (heads ++ [s])].
Proof. intros Ub H. rewrite groups_app, (ungrouped_groups d e b Ub). cbn [groups]. rewrite app_nil_r, joined_groups by exact H. reflexivity. Qed.
Lemma filter_none {X} (f : X -> bool) l : (forall a, In a l -> f a = false) -> filter f l = [].
Proof. induction l as [|a l IH]; intros H; [reflexivity|]. cbn. rewrite H by (left; reflexivity). apply IH. intros b Hb. apply H. right. exact Hb. Qed.
Lemma filter_every {X} (f : X -> bool) l : (forall a, In a l -> f a = true) -> filter f l = l.
Proof. induction l as [|a l IH]; intros H; [reflexivity|]. cbn. rewrite H by (left; reflexivity). f_equal. apply IH. intros b Hb. apply H. right. exact Hb. Qed.
Lemma labs_rank e b n : ungrouped b -> ndots b <= 1 -> rank_fits b n e -> length (labs e b) = n.
Proof.
  intros Ub D H. unfold rank_fits in H. destruct (term_dots_count b Ub) as [T C].
  pose proof (f_equal (@length _) (entries_labs e b Ub)) as E. rewrite map_length, (labs_length e), T in E. rewrite EinsumLaws.ndots_has in H. destruct (ndots b) as [|[|k]]; cbn in H; lia.
Qed.
Lemma joined_dots b heads s : has_dots (b ++ [joined heads s]) = has_dots b.
Proof.
  unfold has_dots, atoms. rewrite flat_map_app, existsb_app. cbn [flat_map]. rewrite app_nil_r, joined_atoms.
  assert (existsb is_dots (map AName (heads ++ [s])) = false) as -> by (induction (heads ++ [s]) as [|t l IH]; [reflexivity|exact IH]). apply orb_false_r.
Qed.
Lemma joined_ndots b heads s : ndots (b ++ [joined heads s]) = ndots b.
Proof.
  unfold ndots, atoms. rewrite flat_map_app, filter_app, app_length. cbn [flat_map]. rewrite app_nil_r, joined_atoms.
  assert (filter is_dots (map AName (heads ++ [s])) = []) as -> by (induction (heads ++ [s]) as [|t l IH]; [reflexivity|exact IH]). cbn. lia.
Qed.

Lemma app_inj_length {X} (a b c d : list X) : length a = length c -> a ++ b = c ++ d -> a = c /\ b = d.
Proof. revert c. induction a as [|x a IH]; intros [|y c] H E; try discriminate; [auto|]. cbn in E. injection E as -> E. destruct (IH c) as [-> ->]; auto. Qed.

Section Linear.
  Context {A : Type} (add mul : A -> A -> A) (zero one : A).
  Context (Hsp : sums_and_products add mul zero) (mul_one : forall a, mul a one = a).
  Context (lib : pystr -> list (tensor A) -> result (tensor A)) (HC : einsum_contract add mul zero one lib).
  Context (iadd : tensor A -> tensor A -> result (tensor A)) (HI : iadd_contract add iadd).
  Context (r : runtime A) (Hok : runtime_ok r) (os os' : nat -> orders) (Hos : forall n, orders_ok (os n)) (Hos' : forall n, orders_ok (os' n)).
  Notation U := (rt_unicode r).
  Notation asg := (assign label_eqb).
  Notation none := (fun _ : label => 0).

  Lemma linear_call p wt bt b heads i o sb sg ni no (M : einmix (tensor A)) e (x w : tensor A) (c : option (tensor A)) :
    ungrouped b -> reads U p (b ++ [joined heads i]) (b ++ [joined heads o]) -> written U wt (axes_named (heads ++ [i; o])) -> ~ In ell_name (heads ++ [i; o]) ->
    (forall text, bt = Some text -> written U text (axes_named (heads ++ [o]))) ->
    length sg = length heads -> EinMix U os os' p wt bt (combine (heads ++ [i; o]) (map Z.of_nat (sg ++ [ni; no]))) = Ok M ->
    (em_pre M <> None \/ em_post M <> None -> e < 8) ->
    wf x -> rank_fits b (length sb) e -> shp x = sb ++ [prodn (sg ++ [ni])] -> wf w -> shp w = sg ++ [ni; no] ->
    match bt with None => c = None | Some _ => exists c0, c = Some c0 /\ wf c0 /\ shp c0 = repeat 1 (length (written_names b)) ++ sg ++ [no] end ->
    map Z.of_nat (shp w) = em_weight M /\ option_map (fun c0 => map Z.of_nat (shp c0)) c = em_bias M /\
    exists y, call_einmix r lib iadd M w c x = Ok y /\ wf y /\ shp y = sb ++ [prodn (sg ++ [no])] /\
      forall h q k, inb sb h = true -> inb sg q = true -> k < no ->
        let t := sum_to add zero ni (fun j => mul (elt zero x (h ++ [ravel (sg ++ [ni]) (q ++ [j])])) (elt zero w (q ++ [j; k]))) in
        get y (h ++ [ravel (sg ++ [no]) (q ++ [k])]) =
          Some match c with None => t | Some c0 => add t (elt zero c0 (repeat 0 (length (written_names b)) ++ q ++ [k])) end.
  Proof.
    intros Ub Hr WW Hell Hbt Lg HM He Wx Hk Sx Ww Sw Hc. pose proof (ro_unicode _ Hok) as HU.
    set (L := b ++ [joined heads i]) in *. set (R := b ++ [joined heads o]) in *. set (W := axes_named (heads ++ [i; o])) in *. set (sizes := combine (heads ++ [i; o]) (map Z.of_nat (sg ++ [ni; no]))) in *.
    pose proof (proj1 (reads_split U HU p L R) Hr) as (l & rr & Hsplit & WL & WR).
    assert (KW : keys W = heads ++ [i; o]) by apply keys_names. assert (KL : keys L = keys b ++ heads ++ [i]) by apply joined_keys. assert (KR : keys R = keys b ++ heads ++ [o]) by apply joined_keys.
    assert (NL : NoDup (keys b ++ heads ++ [i])) by (rewrite <- KL; eapply written_NoDup; eassumption). assert (NR : NoDup (keys b ++ heads ++ [o])) by (rewrite <- KR; eapply written_NoDup; eassumption).
    assert (NW : NoDup (heads ++ [i; o])) by (rewrite <- KW; eapply written_NoDup; eassumption).
    assert (Hi : forall t, In t (heads ++ [i]) -> t <> ell_name) by (intros t Ht ->; apply Hell; rewrite in_app_iff in *; cbn in *; tauto).
    assert (Ho : forall t, In t (heads ++ [o]) -> t <> ell_name) by (intros t Ht ->; apply Hell; rewrite in_app_iff in *; cbn in *; tauto).
    assert (Pb : plain b).
    { intros X. unfold atoms in X. apply in_flat_map in X as (it & Hit & X). destruct (Ub it Hit) as [->|(s & -> & Hs)]; destruct X as [X|[]]; [discriminate|]. injection X as ->. contradiction. }
    assert (Pj : forall s, (forall t, In t (heads ++ [s]) -> t <> ell_name) -> plain (b ++ [joined heads s])).
    { intros s Hs X. unfold atoms in X. rewrite flat_map_app in X. apply in_app_or in X as [X|X]; [exact (Pb X)|]. cbn [flat_map] in X. rewrite app_nil_r, joined_atoms in X. apply in_map_iff in X as (t & E & X). injection E as ->. exact (Hs _ X eq_refl). }
    assert (PL : plain L) by (apply Pj, Hi). assert (PR : plain R) by (apply Pj, Ho).
    assert (PW : plain W).
    { intros X. unfold W, atoms, axes_named in X. apply in_flat_map in X as (it & Hit & X). apply in_map_iff in Hit as (s & <- & Hs). destruct X as [X|[]]. injection X as ->. exact (Hell Hs). }
    assert (Ls : length (heads ++ [i; o]) = length (map Z.of_nat (sg ++ [ni; no]))) by (rewrite map_length, !app_length; cbn; lia).
    assert (Fst : map fst sizes = heads ++ [i; o]) by (unfold sizes; apply combine_fst; symmetry; exact Ls).
    assert (Hn : NoDup (map fst sizes)) by (rewrite Fst; exact NW).
    assert (EL : left_groups e L = map (fun a => [a]) (labs e b) ++ [map LName (heads ++ [i])]) by (apply joined_side; auto).
    assert (ER : right_groups e L R = map (fun a => [a]) (labs e b) ++ [map LName (heads ++ [o])]) by (apply joined_side; auto).
    assert (Lb : length (labs e b) = length sb).
    { apply labs_rank; auto. rewrite <- (joined_ndots b heads i). eapply written_ndots; eassumption. }
    assert (Nb : NoDup (labs e b)) by (apply labs_NoDup; [exact Ub|]; apply NoDup_app_iff in NL; tauto).
    assert (Dis : forall s, In (LName s) (labs e b) -> In s (keys b)).
    { intros s X. apply in_labs in X; [|exact Ub]. destruct X as [(t & E & X & _)|(j & E & _)]; [injection E as ->; exact X|discriminate]. }
    assert (Nio : NoDup (labs e b ++ map LName (heads ++ [i; o]))).
    { apply NoDup_app_iff. split; [exact Nb|]. split; [apply NoDup_map_inj; [congruence|exact NW]|]. intros a Ha X. apply in_map_iff in X as (s & <- & X). apply Dis in Ha.
      apply NoDup_app_iff in NL as (_ & _ & NL). apply NoDup_app_iff in NR as (_ & _ & NR). apply in_app_or in X as [X|[<-|[<-|[]]]]; [apply (NL s Ha); apply in_or_app; auto|apply (NL i Ha); apply in_or_app; right; left; reflexivity|apply (NR o Ha); apply in_or_app; right; left; reflexivity]. }
    set (len := asg none (labs e b ++ map LName (heads ++ [i; o])) (sb ++ sg ++ [ni; no])).
    assert (Lenb : map len (labs e b) = sb) by (apply (assign_block _ label_eqb_eq none [] (labs e b) _ [] sb); auto).
    assert (Len1 : map len (map LName (heads ++ [i; o])) = sg ++ [ni; no]).
    { apply (assign_last _ label_eqb_eq); [exact Nio|auto|]. rewrite map_length, !app_length. cbn. lia. }
    assert (Len2 : map len (map LName heads) = sg /\ len (LName i) = ni /\ len (LName o) = no).
    { rewrite !map_app in Len1. cbn [map] in Len1. apply app_inj_length in Len1 as [E1 E2]; [|rewrite !map_length; auto]. injection E2 as E2 E3. auto. }
    destruct Len2 as (Lenh & Leni & Leno). clearbody len.
    assert (Leni' : map len (map LName (heads ++ [i])) = sg ++ [ni]) by (rewrite !map_app, Lenh; cbn; congruence).
    assert (Leno' : map len (map LName (heads ++ [o])) = sg ++ [no]) by (rewrite !map_app, Lenh; cbn; congruence).
    assert (Hf : fits len (left_groups e L) (right_groups e L R) (shp x) sizes).
    { split; [|split].
      - rewrite EL. unfold gshape. rewrite map_app. cbn [map]. rewrite Leni', Sx. f_equal. rewrite map_map, <- Lenb. apply map_ext. intros a. cbn. lia.
      - intros k n X. rewrite EL, ER, !concat_app, !concat_ones in X. cbn [concat] in X. rewrite !app_nil_r, !in_app_iff in X.
        assert (Y : In (LNum k n) (labs e b) \/ In (LNum k n) (map LName (heads ++ [i])) \/ In (LNum k n) (map LName (heads ++ [o]))) by tauto. destruct Y as [Y|[Y|Y]].
        + apply in_labs in Y; [|exact Ub]. destruct Y as [(s & Y & _)|(j & Y & _)]; discriminate.
        + apply in_map_iff in Y as (s & Y & _). discriminate.
        + apply in_map_iff in Y as (s & Y & _). discriminate.
      - intros s z X. unfold sizes in X. rewrite <- Len1, map_map in X. clear -X. induction (heads ++ [i; o]) as [|t ts IH]; [destruct X|]. cbn in X. destruct X as [X|X]; [injection X as <- <-; reflexivity|auto]. }
    assert (Hd : no_division sizes len (left_groups e L)).
    { intros g Hg Hu. rewrite EL in Hg. apply in_app_or in Hg as [Hg|[<-|[]]].
      - apply in_map_iff in Hg as (a & <- & Ha). cbn [filter] in *. destruct (unknown (map fst sizes) a); [cbn; lia|contradiction].
      - exfalso. apply Hu. apply filter_none. intros a Ha. apply in_map_iff in Ha as (s & <- & Hs). unfold unknown. rewrite Fst.
        apply negb_false_iff, (str_mem_In s (heads ++ [i; o])). rewrite in_app_iff in *. cbn in *. tauto. }
    assert (Hk' : rank_fits L (length (shp x)) e).
    { unfold rank_fits in *. unfold L. rewrite joined_dots, Sx, !app_length. cbn [length]. destruct (has_dots b); lia. }
    assert (Sw' : map Z.of_nat (shp w) = em_weight M).
    { rewrite (weight_is r Hok os os' Hos p wt bt sizes L R W M e len (shp x) Hr WW PL PR PW Hn HM Hf). unfold weight_axes. rewrite KW, Len1, Sw. reflexivity. }
    split; [exact Sw'|].
    assert (KB : forall bo, bt = Some bo -> forall B, written U bo B -> keys B = heads ++ [o]).
    { intros bo Eb B WB. specialize (Hbt bo Eb). rewrite (written_fun U false false bo B _ HU WB Hbt). apply keys_names. }
    assert (WN : written_names R = written_names b ++ heads ++ [o]).
    { unfold written_names. rewrite KR, filter_app. f_equal. apply filter_every. intros s Hs. specialize (Ho s Hs). destruct (str_eqb s ell_name) eqn:X; [apply str_eqb_eq in X; contradiction|reflexivity]. }
    assert (Mem : forall s, In s (written_names b) -> str_mem s (heads ++ [o]) = false).
    { intros s Hs. destruct (str_mem s (heads ++ [o])) eqn:X; [|reflexivity]. apply str_mem_In in X. apply filter_In in Hs as [Hs _]. apply NoDup_app_iff in NR as (_ & _ & NR). destruct (NR s Hs X). }
    assert (Mem' : forall s, In s (heads ++ [o]) -> str_mem s (heads ++ [o]) = true) by (intros s Hs; apply str_mem_In, Hs).
    assert (Dims : forall B (T : Type) (f : pystr -> T) (d : T), keys B = heads ++ [o] ->
      map (fun s => if str_mem s (keys B) then f s else d) (written_names R) = repeat d (length (written_names b)) ++ map f (heads ++ [o])).
    { intros B T f d EB. rewrite WN, map_app, EB. f_equal; [|apply map_ext_in; intros s Hs; rewrite (Mem' s Hs); reflexivity].
      assert (G : forall ss, (forall s, In s ss -> str_mem s (heads ++ [o]) = false) -> map (fun s => if str_mem s (heads ++ [o]) then f s else d) ss = repeat d (length ss)).
      { induction ss as [|s ss IH]; intros X; [reflexivity|]. cbn [map length repeat]. rewrite X by (left; reflexivity). f_equal. apply IH. intros t Ht. apply X. right. exact Ht. }
      apply G, Mem. }
    assert (Hbias : option_map (fun c0 => map Z.of_nat (shp c0)) c = em_bias M).
    { pose proof (mix_shapes U HU os os' Hos p wt bt sizes Hn L R W Hr WW PL PR PW M HM (fun s => Z.of_nat (len (LName s))) (fun s z X => proj2 (proj2 Hf) s z X)) as (_ & _ & X).
      destruct bt as [bo|]; [|rewrite Hc, X; reflexivity]. destruct X as (B & WB & ->). destruct Hc as (c0 & -> & _ & Sc). cbn [option_map]. f_equal. unfold bias_dims.
      rewrite (Dims B Z (fun s => Z.of_nat (len (LName s))) 1%Z (KB bo eq_refl B WB)), Sc, map_app, <- Leno', !map_map. f_equal. generalize (length (written_names b)). induction n as [|n IH]; [reflexivity|]. cbn. f_equal. exact IH. }
    split; [exact Hbias|].
    set (bb := match bt, c with Some _, Some c0 => Some (axes_named (heads ++ [o]), c0) | _, _ => None end).
    assert (Ebb : option_map snd bb = c) by (unfold bb; destruct bt; [destruct Hc as (c0 & -> & _); reflexivity|rewrite Hc; reflexivity]).
    destruct (call_mixes add mul zero one (sp_comm _ _ _ Hsp) (sp_assoc _ _ _ Hsp) mul_one lib HC iadd HI r Hok os os' Hos Hos' p wt bt sizes L R W Hr WW PL PR PW Hn M HM e len x w Wx Ww Hk' Hf Hd He Sw' bb) as (y & Ey & My).
    { unfold bb. destruct bt as [bo|]; [|rewrite ?Hc; reflexivity]. destruct Hc as (c0 & -> & Wc & Sc). exists (axes_named (heads ++ [o])), c0. split; [reflexivity|]. split; [apply Hbt; reflexivity|]. split; [exact Wc|]. rewrite <- Hbias. reflexivity. }
    rewrite Ebb in Ey. exists y. split; [exact Ey|]. pose proof My as (Wy & Sy & _). split; [exact Wy|]. split.
    { rewrite Sy, ER. unfold gshape. rewrite map_app. cbn [map]. rewrite Leno'. f_equal. rewrite map_map, <- Lenb. apply map_ext. intros a. cbn. lia. }
    intros h q k Hh Hq Hko t.
    pose proof (inb_length _ _ Hh) as Lh. pose proof (inb_length _ _ Hq) as Lq.
    set (ix := asg none (labs e b ++ map LName (heads ++ [o])) (h ++ q ++ [k])).
    assert (No : NoDup (labs e b ++ map LName (heads ++ [o]))).
    { apply NoDup_app_iff in Nio as (_ & _ & X). apply NoDup_app_iff. split; [exact Nb|]. split; [apply NoDup_map_inj; [congruence|]; apply NoDup_app_iff in NR; tauto|].
      intros a Ha Y. apply (X a Ha). rewrite map_app, in_app_iff in *. cbn in *. tauto. }
    assert (Ixb : map ix (labs e b) = h) by (apply (assign_block _ label_eqb_eq none [] (labs e b) _ [] h); auto; lia).
    assert (Ixo : map ix (map LName (heads ++ [o])) = q ++ [k]) by (apply (assign_last _ label_eqb_eq); [exact No|lia|rewrite map_length, !app_length; cbn; lia]).
    assert (Ixh : map ix (map LName heads) = q /\ ix (LName o) = k).
    { pose proof Ixo as E. rewrite !map_app in E. cbn [map] in E. apply app_inj_length in E as [E1 E2]; [|rewrite !map_length; lia]. injection E2 as E2. auto. }
    destruct Ixh as [Ixh Ixk]. clearbody ix.
    assert (Hix : within len ix (concat (right_groups e L R))).
    { rewrite ER, concat_app, concat_ones. cbn [concat]. rewrite app_nil_r. apply inb_within. rewrite !map_app, Lenb, Ixb, <- !map_app, Leno', Ixo, !inb_app, Hh, Hq by lia. apply Nat.ltb_lt in Hko. cbn [inb andb]. rewrite Hko. reflexivity. }
    assert (Miss : missing (left_groups e L) (right_groups e L R) = [LName i]).
    { unfold missing. rewrite EL, ER, !concat_app, !concat_ones. cbn [concat]. rewrite !app_nil_r, (map_app LName heads [i]), !filter_app. cbn [map filter].
      assert (In1 : forall a, In a (labs e b) -> negb (existsb (label_eqb a) (labs e b ++ map LName (heads ++ [o]))) = false).
      { intros a Ha. apply negb_false_iff, existsb_exists. exists a. split; [apply in_or_app; auto|apply label_eqb_eq; reflexivity]. }
      assert (In2 : forall a, In a (map LName heads) -> negb (existsb (label_eqb a) (labs e b ++ map LName (heads ++ [o]))) = false).
      { intros a Ha. apply negb_false_iff, existsb_exists. exists a. split; [apply in_or_app; right; rewrite map_app; apply in_or_app; auto|apply label_eqb_eq; reflexivity]. }
      rewrite (filter_none _ (labs e b) In1), (filter_none _ (map LName heads) In2).
      destruct (existsb (label_eqb (LName i)) (labs e b ++ map LName (heads ++ [o]))) eqn:X; [|reflexivity]. exfalso. apply existsb_exists in X as (a & X & E). apply label_eqb_eq in E. subst a.
      apply in_app_or in X as [X|X].
      - apply NoDup_app_iff in NL as (_ & _ & NL). apply (NL i (Dis _ X)). apply in_or_app. right. left. reflexivity.
      - apply in_map_iff in X as (s & E & X). injection E as ->. apply NoDup_app_iff in NW as (_ & NW & D). apply in_app_or in X as [X|[X|[]]]; [apply (D i X); left; reflexivity|]. subst o. inversion NW. apply H1. left. reflexivity. }
    pose proof (mixes_over add mul zero len _ _ W R x w y bb ix My Hix) as G. cbn zeta in G. rewrite Miss in G.
    assert (Gr : gindex len ix (right_groups e L R) = h ++ [ravel (sg ++ [no]) (q ++ [k])]).
    { rewrite ER. unfold gindex. rewrite map_app. cbn [map]. rewrite Leno', Ixo. f_equal. rewrite map_map, <- Ixb. apply map_ext. intros a. cbn. lia. }
    rewrite Gr in G.
    assert (T : over add zero len [LName i] ix (fun jx => mul (val zero (get x (gindex len jx (left_groups e L)))) (val zero (get w (map jx (map LName (keys W)))))) = t).
    { unfold over, t. cbn [map]. rewrite Leni. fold (sum_over add zero [ni] (fun v => mul (val zero (get x (gindex len (asg ix [LName i] v) (left_groups e L)))) (val zero (get w (map (asg ix [LName i] v) (map LName (keys W))))))).
      rewrite sum_over_one. apply sum_to_ext. intros j Hj. rewrite !elt_val.
      assert (Ji : asg ix [LName i] [j] (LName i) = j).
      { unfold assign. cbn [index_of]. assert (label_eqb (LName i) (LName i) = true) as -> by (apply label_eqb_eq; reflexivity). reflexivity. }
      assert (Jo : forall ls, ~ In (LName i) ls -> map (asg ix [LName i] [j]) ls = map ix ls).
      { intros ls H. apply (assign_map_out _ label_eqb_eq). intros a Ha [<-|[]]. contradiction. }
      assert (Nb' : ~ In (LName i) (labs e b)).
      { intros X. apply NoDup_app_iff in NL as (_ & _ & NL). apply (NL i (Dis _ X)). apply in_or_app. right. left. reflexivity. }
      assert (Nh' : ~ In (LName i) (map LName heads)).
      { intros X. apply in_map_iff in X as (s & E & X). injection E as ->. apply NoDup_app_iff in NW as (_ & _ & D). apply (D i X). left. reflexivity. }
      assert (Noi : ~ In (LName i) [LName o]).
      { intros [X|[]]. injection X as X. subst o. apply NoDup_app_iff in NW as (_ & NW & _). inversion NW. apply H1. left. reflexivity. }
      assert (Gx : gindex len (asg ix [LName i] [j]) (left_groups e L) = h ++ [ravel (sg ++ [ni]) (q ++ [j])]).
      { rewrite EL. unfold gindex. rewrite map_app. cbn [map]. rewrite Leni'. rewrite map_app, (map_app _ (map LName heads)). cbn [map]. rewrite (Jo (map LName heads) Nh'), Ixh, Ji. f_equal.
        rewrite map_map, <- Ixb, <- (Jo (labs e b) Nb'). apply map_ext. intros a. cbn. lia. }
      assert (Gw : map (asg ix [LName i] [j]) (map LName (keys W)) = q ++ [j; k]).
      { rewrite KW, !map_app. cbn [map]. rewrite (Jo (map LName heads) Nh'), Ixh, Ji. pose proof (Jo [LName o] Noi) as X. cbn [map] in X. injection X as X. rewrite X, Ixk. reflexivity. }
      rewrite Gx, Gw. reflexivity. }
    rewrite T in G. clear T. unfold bb in G. destruct bt as [bo|].
    - destruct Hc as (c0 & -> & Wc & Sc). destruct G as (c1 & Gc & Gy). rewrite Gy. f_equal. f_equal. unfold bias_index in Gc.
      rewrite (Dims (axes_named (heads ++ [o])) nat (fun s => ix (LName s)) 0 (keys_names _)) in Gc. rewrite <- Ixo, map_map. unfold elt. rewrite Gc. reflexivity.
    - rewrite Hc in *. exact G.
  Qed.
End Linear.
