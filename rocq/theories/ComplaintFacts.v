(** * Facts: without the messages, Complaints.v is the model of the other files *)
From Verif Require Import Py ListFacts Tensor Parsing Recipe Ops Backends SpecGrammar SpecPattern Api Packing Einsum ParseFacts ParseFacts2 ParseFacts3 ParseLaws SpecForms Compile SpecEinsum EinsumFacts PackFacts Messages MessageFacts Complaints.

Definition plain_told {A} (x : told A) : result A :=
  match x with Done a => Ok a | Says c => Err (complaint_class c) | Other e => Err e end.

Lemma told_if {A B} (m : told A) (f : A -> told B) :
  plain_told (and_if m f) = bind (plain_told m) (fun a => plain_told (f a)).
Proof. destruct m; reflexivity. Qed.
Lemma told_quiet {A} (r : result A) : plain_told (quiet r) = r.
Proof. destruct r; reflexivity. Qed.
Lemma told_says c m : plain_told (says_if c m) = raise_if c (complaint_class m).
Proof. destruct c; reflexivity. Qed.
Lemma told_parsing {A} (r : outcome A) : plain_told (parsing r) = plain_result r.
Proof. destruct r; reflexivity. Qed.
Lemma told_fold {A B} (f : A -> B -> told A) l acc : plain_told (foldT f l acc) = foldM (fun a b => plain_told (f a b)) l acc.
Proof. revert acc. induction l as [|b l IH]; intros acc; cbn [foldT foldM]; [reflexivity|]. rewrite told_if. apply bind_ext. intros a _. apply IH. Qed.
Lemma foldT_Done {A B} (f : A -> B -> told A) l acc a : foldT f l acc = Done a -> foldM (fun a b => plain_told (f a b)) l acc = Ok a.
Proof. intros H. rewrite <- told_fold, H. reflexivity. Qed.

(** the first element that is complained about *)
Lemma foldT_Says {A B} (f : A -> B -> told A) l : forall acc c, foldT f l acc = Says c ->
  exists l1 b l2 acc1, l = l1 ++ b :: l2 /\ foldT f l1 acc = Done acc1 /\ f acc1 b = Says c.
Proof.
  induction l as [|b l IH]; intros acc c H; [discriminate|]. cbn [foldT] in H. destruct (f acc b) as [acc'|c'|e] eqn:E; cbn [and_if] in H; try discriminate.
  - apply IH in H as (l1 & b' & l2 & acc1 & -> & H1 & H2). exists (b :: l1), b', l2, acc1. split; [reflexivity|]. split; [|exact H2].
    cbn [foldT]. rewrite E. exact H1.
  - injection H as ->. exists [], b, l, acc. auto.
Qed.

Lemma foldM_unit_ok {B} (P : B -> bool) (e : exn) l : foldM (fun _ b => raise_if (P b) e) l tt = raise_if (existsb P l) e.
Proof. induction l as [|b l IH]; [reflexivity|]. cbn [foldM existsb]. destruct (P b); [reflexivity|exact IH]. Qed.

Lemma told_analyze U p : plain_told (analyze_pattern_msg U p) = analyze_pattern U p.
Proof.
  unfold analyze_pattern_msg, analyze_pattern. cbv zeta. rewrite told_if, told_says. apply bind_ext. intros _ _.
  rewrite told_if, told_says. apply bind_ext. intros _ _. rewrite told_if. rewrite told_fold.
  rewrite (foldM_ext' _ (fun _ b => raise_if (negb (str_eqb b star) && negb (check_axis_name U false b)) EinopsError)) by (intros [] b; apply told_says).
  rewrite foldM_unit_ok. apply bind_ext. intros _ _. rewrite told_if, told_quiet. apply bind_ext. intros n _. reflexivity.
Qed.

Lemma foldM_enumerate {A B} (f : A -> B -> result A) l : forall k acc, foldM (fun a '(i, b) => f a b) (enumerate_from k l) acc = foldM f l acc.
Proof. induction l as [|b l IH]; intros k acc; [reflexivity|]. cbn [enumerate_from foldM]. apply bind_ext. intros a _. apply IH. Qed.

Section Packing.
  Context {T : Type} (U : unicode) (shape_of : T -> list Z) (reshape : T -> list Z -> result T)
          (concat_ : list T -> nat -> result T) (slice : T -> nat -> Z -> Z -> result T).
  Lemma told_pack ts p : plain_told (pack_told U shape_of reshape concat_ ts p) = pack_with U shape_of reshape concat_ ts p.
  Proof.
    unfold pack_told, pack_with, pack_given. rewrite told_if, told_analyze. apply bind_ext. intros [[nb na] mn] _.
    rewrite told_if, told_quiet. apply bind_ext. intros _ _. rewrite told_if, told_fold. unfold enumerate.
    set (g := fun '(reshaped, packed_shapes) tensor => let shape := shape_of tensor in
       let* _ := raise_if (length shape <? mn) EinopsError in
       let axis_after_packed_axes := length shape - na in
       let packed_shapes := packed_shapes ++ [skipn nb (firstn axis_after_packed_axes shape)] in
       let* t := reshape tensor (firstn nb shape ++ [(-1)%Z] ++ skipn axis_after_packed_axes shape) in Ok (reshaped ++ [t], packed_shapes)).
    rewrite (foldM_ext' _ (fun a '(i, b) => g a b)).
    - rewrite (foldM_enumerate g). apply bind_ext. intros [rs ps] _. rewrite told_if, told_quiet. reflexivity.
    - intros [rs ps] [i t]. unfold g. cbv zeta. rewrite told_if, told_says. apply bind_ext. intros _ _. rewrite told_if, told_quiet. reflexivity.
  Qed.
  Lemma told_unpack x ps p : plain_told (unpack_told U shape_of reshape slice x ps p) = unpack_with U shape_of reshape slice x ps p.
  Proof.
    unfold unpack_told, unpack_with, unpack_given. rewrite told_if, told_analyze. apply bind_ext. intros [[nb na] mn] _. cbv zeta.
    rewrite told_if, told_says. apply bind_ext. intros _ _. rewrite told_if, told_says. apply bind_ext. intros _ _.
    rewrite told_if, told_quiet. apply bind_ext. intros n _. rewrite told_if, told_quiet. apply bind_ext. intros sp _.
    destruct (mapM _ _); reflexivity.
  Qed.
End Packing.

Lemma told_shape U shape p : plain_told (parse_shape_told U shape p) = parse_shape U shape p.
Proof.
  unfold parse_shape_told, parse_shape. rewrite told_if, told_parsing, plain_parse. apply bind_ext. intros [e k] _.
  rewrite told_if, told_says. apply bind_ext. intros _ _. cbv zeta. rewrite told_if.
  replace (plain_told _) with (if length shape =? length (p_composition e) then Ok tt else if p_has_ellipsis e then raise_if (length shape <? length (p_composition e) - 1) RuntimeError else Err RuntimeError)
    by (destruct (length shape =? _); [reflexivity|]; destruct (p_has_ellipsis e); [rewrite told_says|]; reflexivity).
  apply bind_ext. intros _ _. rewrite told_if.
  replace (plain_told (if p_has_ellipsis e then _ else _)) with
    (if p_has_ellipsis e then let* k := of_option ValueError (find_cell (p_composition e)) in
       Ok (firstn k (p_composition e) ++ repeat underscore (length shape + 1 - length (p_composition e)) ++ skipn (S k) (p_composition e))
     else Ok (p_composition e))
    by (destruct (p_has_ellipsis e); [rewrite told_if, told_quiet|]; reflexivity).
  apply bind_ext. intros comp _. rewrite told_fold. apply foldM_ext'. intros acc [c d]. unfold cell_step_msg.
  destruct (cell_axes c) as [|[s|j v] [|? ?]]; try reflexivity.
  - destruct (d =? 1)%Z; reflexivity.
  - destruct (str_eqb s [c_under]); reflexivity.
  - destruct (v =? d)%Z; reflexivity.
Qed.

(** ** einsum.  The check for empty names is not in Einsum.v; names are not empty *)
Definition named_comp (c : comp) : Prop := forall s, c = CGrp [AxName s] -> s <> [].
Lemma told_axis c : named_comp c -> plain_told (einsum_axis_msg c) = einsum_axis c.
Proof.
  intros H. destruct c as [|[|[s|k v] [|b l]]]; try reflexivity. cbn. destruct s as [|x s]; [destruct (H [] eq_refl eq_refl)|reflexivity].
Qed.
Lemma told_left_axis st c : named_comp c -> plain_told (left_axis_step_msg st c) = left_axis_step st c.
Proof.
  intros H. destruct st as [m lp]. unfold left_axis_step_msg, left_axis_step. rewrite told_if, (told_axis c H). apply bind_ext. intros [s|] _; [|reflexivity].
  rewrite told_if. destruct (dict_has str_eqb s m); cbn [plain_told bind].
  - rewrite told_if, told_quiet. reflexivity.
  - destruct (nth_error ascii_letters (length m)); cbn [plain_told bind complaint_class]; [|reflexivity]. rewrite told_if, told_quiet. reflexivity.
Qed.
Lemma told_right_axis m st c : named_comp c -> plain_told (right_axis_step_msg m st c) = right_axis_step m st c.
Proof.
  intros H. unfold right_axis_step_msg, right_axis_step. rewrite told_if, (told_axis c H). apply bind_ext. intros [s|] _; [|reflexivity].
  destruct (dict_get str_eqb s m); reflexivity.
Qed.
Lemma foldM_ext_all {A B} (f g : A -> B -> result A) l acc : (forall a b, In b l -> f a b = g a b) -> foldM f l acc = foldM g l acc.
Proof.
  revert acc. induction l as [|b l IH]; intros acc H; [reflexivity|]. cbn [foldM]. rewrite (H acc b (or_introl eq_refl)). apply bind_ext. intros a _. apply IH.
  intros a' b' Hb. apply H. right. exact Hb.
Qed.
Lemma told_left st l : Forall named_comp (p_composition l) -> plain_told (left_step_msg st l) = left_step st l.
Proof.
  intros H. destruct st as [m lps]. unfold left_step_msg, left_step. rewrite told_if, told_fold.
  rewrite (foldM_ext_all _ left_axis_step) by (intros a b Hb; apply told_left_axis; exact (proj1 (Forall_forall _ _) H b Hb)).
  apply bind_ext. intros [m' lp] _. reflexivity.
Qed.

Lemma legal_nonempty U au w : legal_name U au w -> w <> [].
Proof. intros [->|[H _]]; [discriminate|]. intros ->. discriminate. Qed.
Lemma word_atom_name U au w a s : word_atom U au w a -> a = AName s -> s <> [].
Proof. intros [ |? _ _|? H] E; try discriminate. injection E as <-. eapply legal_nonempty; eauto. Qed.
Lemma structured_names U au ts e : structured U au ts e -> forall s, In (AName s) (atoms e) -> s <> [].
Proof.
  induction 1 as [|w a ts e Hw _ IH|ws l ts e Hl _ IH]; intros s Hs.
  - destruct Hs.
  - unfold atoms in Hs. cbn [flat_map item_atoms app] in Hs. destruct Hs as [E|Hs]; [|exact (IH s Hs)]. eapply word_atom_name; eauto.
  - unfold atoms in Hs. cbn [flat_map item_atoms] in Hs. apply in_app_or in Hs as [Hs|Hs]; [|exact (IH s Hs)].
    clear IH. induction Hl as [|w a ws l Hw _ IHl]; [destruct Hs|]. destruct Hs as [E|Hs]; [|exact (IHl Hs)]. eapply word_atom_name; eauto.
Qed.
Lemma axes_names l : forall k s, In (AxName s) (atoms_axes k l) -> s = ell_name \/ In (AName s) l.
Proof.
  induction l as [|a l IH]; intros k s H; [destruct H|]. cbn [atoms_axes] in H. apply in_app_or in H as [H|H].
  - destruct a as [x|n|]; cbn [atom_axes] in H.
    + destruct H as [E|[]]. injection E as ->. right. left. reflexivity.
    + destruct (n =? 1)%Z; [destruct H|]. destruct H as [E|[]]. discriminate.
    + destruct H as [E|[]]. injection E as <-. left. reflexivity.
  - apply IH in H as [H|H]; [left; exact H|right; right; exact H].
Qed.
Lemma comps_named e : (forall s, In (AName s) (atoms e) -> s <> []) -> forall k, Forall named_comp (comps k e).
Proof.
  induction e as [|i e IH]; intros H k; [constructor|]. cbn [comps]. constructor.
  - intros s E. assert (Hs : In (AxName s) (atoms_axes k (content i))) by (rewrite <- item_axes, E; left; reflexivity).
    apply axes_names in Hs as [->|Hs]; [discriminate|]. apply H. unfold atoms. cbn [flat_map]. apply in_or_app. left. apply filter_In in Hs. tauto.
  - apply IH. intros s Hs. apply H. unfold atoms. cbn [flat_map]. apply in_or_app. right. exact Hs.
Qed.
Lemma written_named U au ad s e k : written_as U au ad s e -> Forall named_comp (comps k e).
Proof. intros (ts & _ & Ht & _). apply comps_named. exact (structured_names U au ts e Ht). Qed.
Lemma compile_all_named U ss es : Forall2 (written_as U true true) ss es -> forall k, Forall (fun p => Forall named_comp (p_composition p)) (fst (compile_all k es)).
Proof.
  induction 1 as [|s e ss es He _ IH]; intros k; [constructor|]. cbn [compile_all]. destruct (compile k e) as [p k1] eqn:Ep.
  specialize (IH k1). destruct (compile_all k1 es) as [ps k2]. cbn [fst] in *. constructor; [|exact IH].
  assert (Ec : p_composition p = comps k e) by (unfold compile in Ep; injection Ep as <- _; reflexivity). rewrite Ec. eapply written_named; eauto.
Qed.

Lemma told_parse_all U ss : forall acc k,
  plain_told (foldT (fun '(lefts, next) s => let? (p, next) := parsing (parse_expression_msg U true true next s) in Done (lefts ++ [p], next)) ss (acc, k)) =
  foldM (fun '(lefts, next) s => let* (p, next) := parse_expression U true true next s in Ok (lefts ++ [p], next)) ss (acc, k).
Proof.
  intros acc k. rewrite told_fold. apply foldM_ext'. intros [ls n] s. rewrite told_if, told_parsing, plain_parse. apply bind_ext. intros [p n'] _. reflexivity.
Qed.

Lemma told_compactify U p : unicode_ok U -> plain_told (compactify_told U p) = compactify U p.
Proof.
  intros HU. unfold compactify_told, compactify. rewrite told_if, told_says. apply bind_ext. intros _ _.
  destruct (str_split s_arrow p) as [|l [|r [|? ?]]]; try reflexivity.
  rewrite told_if, told_parse_all. apply bind_ext. intros [lefts next] H1. rewrite told_if, told_parsing, plain_parse. apply bind_ext. intros [rght k] H2.
  apply (parse_all U HU) in H1 as (es & Hes & Est). injection Est as -> ->. apply (parse_expression_iff U HU) in H2 as (e & He & Ep).
  rewrite told_if, told_fold. pose proof (compile_all_named U _ es Hes 0) as Hn. rewrite Forall_forall in Hn.
  rewrite (foldM_ext_all _ left_step) by (intros a b Hb; apply told_left; exact (Hn b Hb)).
  apply bind_ext. intros [m strs] _. rewrite told_fold. assert (Ec : p_composition rght = comps (snd (compile_all 0 es)) e) by (unfold compile in Ep; injection Ep as -> _; reflexivity).
  rewrite Ec. apply foldM_ext_all. intros a b Hb. apply told_right_axis. pose proof (written_named U true false r e (snd (compile_all 0 es)) He) as Hr.
  rewrite Forall_forall in Hr. exact (Hr b Hb).
Qed.

Lemma told_einsum {T} U (lib : pystr -> list T -> result T) args : unicode_ok U -> plain_told (einsum_told U lib args) = einsum_with U lib args.
Proof.
  intros HU. unfold einsum_told, einsum_with, einsum_given. rewrite told_if, told_says. apply bind_ext. intros _ _.
  destruct (last args (inr [])) as [t|p]; [reflexivity|]. cbv zeta. rewrite told_if, (told_compactify U p HU). apply bind_ext. intros c _.
  destruct (removelast args) as [|[t|s] l]; try reflexivity; rewrite told_if, told_quiet; apply bind_ext; intros ts _; apply told_quiet.
Qed.
