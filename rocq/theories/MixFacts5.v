(** * EinMix: the parts of a call *)
From Verif Require Import Py Tensor ListFacts SpecSem SpecGrammar SpecEinsum SpecPattern SpecForms SpecOps Parsing Compile Recipe Ops Backends Api
  ParseFacts ParseFacts2 ParseFacts3 FrontFacts FrontFacts2 FrontFacts3 MainFacts MainFacts2 MainFacts3 CallFacts ApiFacts ApiFacts6 EinsumFacts EinsumFacts2 EinsumFacts3 EinsumFacts4
  Layers Einsum LayerFacts EinMix SpecEinMix MixFacts MixFacts2 MixFacts3 MixFacts4.
From Coq Require Import Permutation.

Notation single l := (map (fun a => [a]) l).

Lemma gshape_single (len : label -> nat) l : gshape len (single l) = map len l.
Proof. unfold gshape. rewrite map_map. apply map_ext. intros a. cbn. lia. Qed.
Lemma gindex_single (len ix : label -> nat) l : gindex len ix (single l) = map ix l.
Proof. unfold gindex. rewrite map_map. apply map_ext. intros a. cbn. lia. Qed.

(** ** expressions in which every group is one axis *)
Lemma alabs_one e l k : existsb is_big l = false -> existsb is_ell l = false -> length (atoms_axes k l) = 1 -> exists a, alabs e l = [a].
Proof.
  revert k. induction l as [|a l IH]; intros k Hb He H; [discriminate|]. cbn [existsb] in Hb, He. apply orb_false_iff in Hb as [Hb1 Hb2]. apply orb_false_iff in He as [He1 He2].
  cbn [atoms_axes flat_map] in *. rewrite app_length in H. destruct a as [s|n|]; cbn in He1, Hb1; [| |discriminate].
  - cbn [atom_axes length] in H. cbn [alab app]. exists (LName s). f_equal.
    pose proof (Nat.succ_inj _ 0 H) as X. clear -X Hb2 He2. revert X. generalize (k + nbig [AName s]) as j. induction l as [|b l IH]; intros j X; [reflexivity|].
    cbn [existsb] in Hb2, He2. apply orb_false_iff in Hb2 as [Hb1 Hb2]. apply orb_false_iff in He2 as [He1 He2]. cbn [atoms_axes] in X. rewrite app_length in X.
    destruct b as [t|n|]; [discriminate X| |discriminate He1]. cbn [flat_map alab app]. apply (IH Hb2 He2 (j + nbig [ANum n])). apply Nat.eq_add_0 in X. apply X.
  - apply negb_false_iff in Hb1. cbn [atom_axes] in H. rewrite Hb1 in H. cbn [length] in H. cbn [alab app]. eapply IH; eauto.
Qed.
Lemma groups_single dots e k E : has_numbers E = false -> (dots = true \/ has_dots E = false) -> plain E -> existsb grouped_ell E = false ->
  existsb (fun c => negb (length (comp_axes c) =? 1)) (comps k E) = false -> groups dots e k E = single (alabs e (atoms E)).
Proof.
  unfold has_numbers, has_dots, plain. revert k. induction E as [|i E IH]; intros k Hb Hd Hp Hg Hc; [reflexivity|].
  unfold atoms in *. cbn [flat_map] in *. rewrite existsb_app in Hb, Hd. apply orb_false_iff in Hb as [Hb1 Hb2].
  assert (Hd1 : dots = true \/ existsb is_dots (item_atoms i) = false) by (destruct Hd as [Hd|Hd]; [left; exact Hd|right; apply orb_false_iff in Hd; apply Hd]).
  assert (Hd2 : dots = true \/ existsb is_dots (flat_map item_atoms E) = false) by (destruct Hd as [Hd|Hd]; [left; exact Hd|right; apply orb_false_iff in Hd; apply Hd]).
  assert (Hp1 : ~ In (AName ell_name) (item_atoms i)) by (intros X; apply Hp, in_or_app; left; exact X).
  assert (Hp2 : ~ In (AName ell_name) (flat_map item_atoms E)) by (intros X; apply Hp, in_or_app; right; exact X).
  cbn [existsb] in Hg. apply orb_false_iff in Hg as [Hg1 Hg2]. cbn [comps existsb] in Hc. apply orb_false_iff in Hc as [Hc1 Hc2].
  cbn [groups]. rewrite flat_map_app, map_app. f_equal; [|apply IH; auto]. clear IH.
  apply negb_false_iff, Nat.eqb_eq in Hc1. destruct i as [a|l]; cbn [item_groups item_atoms] in *.
  - cbn [existsb] in Hb1, Hd1. rewrite orb_false_r in Hb1, Hd1. assert (Hna : a <> AName ell_name) by (intros ->; apply Hp1; left; reflexivity).
    rewrite (stands_plain dots a Hd1 Hna), (atom_labels_alab dots e k a Hb1 Hd1 Hna). cbn [flat_map]. rewrite app_nil_r.
    destruct a as [s|n|]; cbn; try reflexivity. cbn in Hb1, Hc1. apply negb_false_iff in Hb1. rewrite Hb1 in Hc1. discriminate.
  - rewrite (atoms_labels_alabs dots e l k Hb1 Hd1 Hp1). cbn [item_comp comp_axes] in Hc1. cbn [grouped_ell] in Hg1.
    destruct (alabs_one e l k Hb1 Hg1 Hc1) as [a ->]. reflexivity.
Qed.

(** ** names and terms *)
Lemma alabs_length e E : has_numbers E = false -> plain E -> length (alabs e (atoms E)) = length (term_names (term_of (atoms E))) + ndots E * e.
Proof.
  unfold has_numbers, plain, ndots. induction (atoms E) as [|a l IH]; intros Hb Hp; [reflexivity|]. cbn [existsb] in Hb. apply orb_false_iff in Hb as [Hb1 Hb2].
  assert (Hp2 : ~ In (AName ell_name) l) by (intros X; apply Hp; right; exact X). specialize (IH Hb2 Hp2).
  cbn [flat_map]. rewrite app_length, IH. destruct a as [s|n|]; cbn [alab filter is_dots].
  - reflexivity.
  - reflexivity.
  - rewrite map_length, seq_length. change (term_names (term_of (ADots :: l))) with (term_names (term_of l)). cbn [length]. lia.
Qed.
Lemma term_names_of E : has_numbers E = false -> plain E -> term_names (term_of (atoms E)) = written_names E.
Proof.
  unfold has_numbers, plain, written_names, keys. induction (atoms E) as [|a l IH]; intros Hb Hp; [reflexivity|]. cbn [existsb] in Hb. apply orb_false_iff in Hb as [Hb1 Hb2].
  assert (Hp2 : ~ In (AName ell_name) l) by (intros X; apply Hp; right; exact X). specialize (IH Hb2 Hp2).
  destruct a as [s|n|]; cbn [term_of flat_map app atom_key filter].
  - destruct (str_eqb s ell_name) eqn:X; [apply str_eqb_eq in X; subst; exfalso; apply Hp; left; reflexivity|]. cbn [negb term_names flat_map app]. f_equal. exact IH.
  - exact IH.
  - rewrite str_eqb_refl. cbn [negb term_names flat_map app]. exact IH.
Qed.
Lemma term_dots_of E : term_dots (term_of (atoms E)) = ndots E.
Proof.
  unfold ndots, term_dots. induction (atoms E) as [|a l IH]; [reflexivity|]. destruct a as [s|n|]; cbn [term_of flat_map app filter is_dots length]; auto.
Qed.
Lemma ndots_has E : ndots E <= 1 -> ndots E = if has_dots E then 1 else 0.
Proof.
  unfold ndots, has_dots. induction (atoms E) as [|a l IH]; intros H; [reflexivity|]. cbn [filter existsb] in *. destruct (is_dots a); cbn [length orb] in *; [|apply IH, H].
  assert (length (filter is_dots l) = 0) by lia. lia.
Qed.
Lemma None_in_term E : In None (term_of (atoms E)) <-> has_dots E = true.
Proof.
  unfold has_dots, term_of. rewrite in_flat_map, existsb_exists. split; intros [a [Ha X]]; exists a; (split; [exact Ha|]); destruct a; cbn in *; try discriminate; auto; destruct X as [X|[]]; discriminate.
Qed.
Lemma written_names_NoDup E : NoDup (keys E) -> NoDup (written_names E).
Proof. intros H. apply NoDup_filter. exact H. Qed.

(** ** einsum's labels and ours *)
Section Labels.
  Context (e : nat).
  Definition conv (l : lab pystr) : label := match l with SpecEinsum.LName s => LName s | LDot k => LDots (e - 1 - k) end.
  Definition back (a : label) : lab pystr := match a with LName s => SpecEinsum.LName s | LDots i => LDot (e - 1 - i) | LNum _ _ => LDot e end.
  Lemma rev_seq : map (fun k => LDots (e - 1 - k)) (rev (seq 0 e)) = map LDots (seq 0 e).
  Proof.
    rewrite map_rev. rewrite <- (rev_involutive (map LDots (seq 0 e))). f_equal. rewrite <- map_rev.
    apply list_ext. intros i. rewrite !nth_error_map. destruct (lt_dec i e) as [H|H].
    - rewrite nth_error_seq by exact H. rewrite (nth_error_nth' (rev (seq 0 e)) 0) by (rewrite rev_length, seq_length; exact H).
      rewrite rev_nth by (rewrite seq_length; exact H). rewrite seq_length, seq_nth by lia. cbn. do 2 f_equal. lia.
    - rewrite (proj2 (nth_error_None _ _)) by (rewrite seq_length; lia). rewrite (proj2 (nth_error_None _ _)) by (rewrite rev_length, seq_length; lia). reflexivity.
  Qed.
  Lemma conv_labs l : map conv (term_labs e (term_of l)) = alabs e l.
  Proof.
    induction l as [|a l IH]; [reflexivity|]. unfold term_labs, term_of in *. cbn [flat_map]. rewrite flat_map_app, map_app, IH. f_equal.
    destruct a as [s|n|]; cbn; try reflexivity. rewrite app_nil_r, map_map. exact rev_seq.
  Qed.
  Lemma labs_small l x : In x (term_labs e (term_of l)) -> match x with LDot k => k < e | _ => True end.
  Proof.
    unfold term_labs. rewrite in_flat_map. intros [o [_ H]]. destruct o as [s|]; [destruct H as [<-|[]]; exact I|].
    apply in_map_iff in H as [k [<- H]]. apply in_rev, in_seq in H. lia.
  Qed.
  Lemma back_conv x : match x with LDot k => k < e | _ => True end -> back (conv x) = x.
  Proof. destruct x as [s|k]; cbn; [reflexivity|]. intros H. f_equal. lia. Qed.
  Lemma back_labs l : map back (alabs e l) = term_labs e (term_of l).
  Proof.
    rewrite <- conv_labs, map_map. rewrite <- (map_id (term_labs e (term_of l))) at 2. apply map_ext_in. intros x Hx. apply back_conv, (labs_small l x Hx).
  Qed.
End Labels.
