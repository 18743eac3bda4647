(** * Facts about arrays in memory: places *)
From Verif Require Import Py Tensor ListFacts TensorFacts SpecSem SpecElements ElementFacts Parsing Recipe Ops Backends Api SymFacts Strides SpecStrides.

Lemma indices_len s idx : In idx (indices s) -> length idx = length s.
Proof. intros H. apply indices_In in H. apply inb_length, H. Qed.
Lemma places_length off s st : length (places_of off s st) = prodn s.
Proof. unfold places_of. rewrite map_length. apply indices_length. Qed.
Lemma places_wf {A} (v : array A) : wf (places v).
Proof. apply places_length. Qed.
Lemma places_get off s st idx : inb s idx = true -> getr (mkT s (places_of off s st)) idx = Ok (off + dot st idx)%Z.
Proof.
  intros H. unfold getr, get. cbn [shp dat]. rewrite H. unfold places_of. rewrite (map_nth_error _ _ _ (indices_nth _ _ H)). reflexivity.
Qed.
Lemma tabulate_places s f off st : (forall idx, inb s idx = true -> f idx = Ok (off + dot st idx)%Z) -> tabulate s f = Ok (mkT s (places_of off s st)).
Proof.
  intros H. apply tabulate_unique; [apply places_length|reflexivity|]. intros idx Hi. rewrite (H idx Hi). apply places_get, Hi.
Qed.

Definition sumZ (l : list Z) : Z := fold_right Z.add 0%Z l.
Lemma sumZ_perm l l' : Permutation l l' -> sumZ l = sumZ l'.
Proof. intros H. unfold sumZ. induction H; cbn; try lia. Qed.
Lemma dot_map {X} (f : X -> Z) (j : X -> nat) l : dot (map f l) (map j l) = sumZ (map (fun a => f a * Z.of_nat (j a))%Z l).
Proof. induction l as [|a l IH]; cbn in *; [reflexivity|]. rewrite IH. reflexivity. Qed.
Lemma nth_seq_map {X} (l : list X) d : map (fun a => nth a l d) (seq 0 (length l)) = l.
Proof. induction l as [|a l IH]; [reflexivity|]. cbn [length seq map nth]. f_equal. rewrite <- seq_shift, map_map. exact IH. Qed.

Lemma permutation_spec axes n : is_permutation axes n = true -> Permutation axes (seq 0 n) /\ NoDup axes /\ length axes = n.
Proof.
  unfold is_permutation. intros H. apply andb_prop in H as [H H3]. apply andb_prop in H as [H1 H2]. apply Nat.eqb_eq in H1. rewrite forallb_forall in H2. apply nat_nodupb_NoDup in H3.
  split; [|auto]. apply NoDup_Permutation_bis; [exact H3|rewrite seq_length; lia|]. intros a Ha. apply in_seq. specialize (H2 a Ha). apply Nat.ltb_lt in H2. lia.
Qed.
Definition taken (axes idx : list nat) (a : nat) : nat := match index_of Nat.eqb a axes with Some k => nth k idx 0 | None => 0 end.
Lemma taken_all axes idx : NoDup axes -> length idx = length axes -> map (taken axes idx) axes = idx.
Proof.
  revert idx. induction axes as [|a axes IH]; intros [|i idx] Hn Hl; try discriminate; [reflexivity|]. inversion Hn as [|? ? Hna Hn']; subst. cbn [map]. f_equal.
  - unfold taken. cbn [index_of]. rewrite Nat.eqb_refl. reflexivity.
  - rewrite <- (IH idx) at 2; auto. apply map_ext_in. intros b Hb. unfold taken. cbn [index_of]. destruct (Nat.eqb b a) eqn:E; [apply Nat.eqb_eq in E; subst; contradiction|].
    destruct (index_of Nat.eqb b axes); reflexivity.
Qed.
Lemma transpose_places {A} (v : array A) axes v' : length (a_str v) = length (a_shp v) -> v_transpose v axes = Ok v' ->
  t_transpose (places v) axes = Ok (places v').
Proof.
  intros Hl H. unfold v_transpose in H. destruct (is_permutation axes (length (a_shp v))) eqn:Ep; [|discriminate]. injection H as <-.
  unfold t_transpose. cbn [shp places]. rewrite Ep. unfold places. cbn [a_shp a_str a_off]. apply permutation_spec in Ep as (Hp & Hn & Hlen).
  apply tabulate_places. intros idx Hi. pose proof (inb_length _ _ Hi) as Hil. rewrite map_length in Hil.
  pose proof (taken_all axes idx Hn Hil) as Et. rewrite places_get.
  - f_equal. f_equal. fold (taken axes idx). rewrite <- Et at 2. rewrite dot_map. rewrite <- (nth_seq_map (a_str v) 0%Z) at 1. rewrite Hl, dot_map.
    apply sumZ_perm, Permutation_map, Permutation_sym, Hp.
  - fold (taken axes idx). rewrite <- (nth_seq_map (a_shp v) 0) at 1. apply inb_map. intros a Ha. rewrite <- Et in Hi. apply (proj1 (inb_map _ _ _) Hi).
    eapply Permutation_in; [apply Permutation_sym, Hp|exact Ha].
Qed.

Lemma places_insert off st : forall s1 s2 st1 st2, st = st1 ++ st2 -> length st1 = length s1 ->
  places_of off (s1 ++ 1 :: s2) (st1 ++ 0%Z :: st2) = places_of off (s1 ++ s2) (st1 ++ st2).
Proof.
  intros s1 s2 st1 st2 _ H. unfold places_of. revert off st1 H. induction s1 as [|d s1 IH]; intros off [|z st1] H; try discriminate.
  - cbn [app indices]. cbn [seq flat_map]. rewrite app_nil_r, map_map. apply map_ext. intros idx. cbn [dot]. lia.
  - cbn [app indices]. cbn [length] in H. injection H as H. induction (seq 0 d) as [|i l IHl]; [reflexivity|]. cbn [flat_map]. rewrite !map_app, IHl. f_equal.
    rewrite !map_map. pose proof (IH (off + z * Z.of_nat i)%Z st1 H) as E. 
    rewrite (map_ext _ (fun idx => off + z * Z.of_nat i + dot (st1 ++ 0%Z :: st2) idx)%Z) by (intros; cbn [dot]; lia). rewrite E. apply map_ext. intros; cbn [dot]; lia.
Qed.
Lemma expand_dims_places {A} (v : array A) p v' : length (a_str v) = length (a_shp v) -> v_expand_dims v p = Ok v' ->
  t_expand_dims (places v) p = Ok (places v').
Proof.
  intros Hl H. unfold v_expand_dims in H. unfold t_expand_dims. cbn [shp places]. destruct (p <=? length (a_shp v)) eqn:E; [|discriminate]. injection H as <-. apply Nat.leb_le in E.
  unfold places. cbn [a_shp a_str a_off dat]. f_equal. f_equal. unfold insert_at. rewrite (places_insert _ (a_str v)); [|symmetry; apply firstn_skipn|rewrite !firstn_length; lia].
  rewrite !firstn_skipn. reflexivity.
Qed.
Lemma expand_places {A} (v : array A) sizes v' : length (a_str v) = length (a_shp v) -> v_expand v sizes = Ok v' ->
  t_expand (places v) sizes = Ok (places v').
Proof.
  intros Hl H. unfold v_expand in H. unfold t_expand. cbn [shp places]. apply bind_Ok in H as [s' [E H]]. injection H as <-. rewrite E. cbn [bind]. unfold places. cbn [a_shp a_str a_off].
  apply tabulate_places. intros idx Hi. destruct v as [b off s st]. cbn [a_buf a_off a_shp a_str dat shp] in *. 
  assert (G : inb s (map2 (fun i d => if d =? 1 then 0 else i) idx s) = true /\
    dot st (map2 (fun i d => if d =? 1 then 0 else i) idx s) = dot (map2 (fun d st => if d =? 1 then 0%Z else st) s st) idx).
  { revert sizes s' E idx Hi st Hl. induction s as [|d s IH]; intros [|z sizes] s' E idx Hi st Hl; try discriminate.
    - injection E as <-. destruct idx; [|discriminate]. destruct st; [|discriminate]. split; reflexivity.
    - cbn [expand_shape] in E. apply bind_Ok in E as [n [En E]]. apply bind_Ok in E as [ns [Ens E]]. injection E as <-. destruct idx as [|i idx]; [discriminate|]. apply inb_cons in Hi as [Hi1 Hi2].
      destruct st as [|x st]; [discriminate|]. cbn [length] in Hl. injection Hl as Hl. destruct (IH sizes ns Ens idx Hi2 st Hl) as [G1 G2]. cbn [map2 dot]. rewrite G2. split.
      + apply inb_cons. split; [|exact G1]. destruct (d =? 1) eqn:Ed; [apply Nat.eqb_eq in Ed; lia|]. unfold expand_dim in En. rewrite Ed in En.
        destruct (z =? -1)%Z; [injection En as <-; exact Hi1|]. destruct (z <? 0)%Z; [discriminate|]. destruct (Z.to_nat z =? d); [injection En as <-; exact Hi1|discriminate].
      + destruct (d =? 1); lia. }
  destruct G as [G1 G2]. rewrite places_get by exact G1. rewrite G2. reflexivity.
Qed.
Lemma slice_places {A} (v : array A) axis lo hi v' : length (a_str v) = length (a_shp v) -> v_slice v axis lo hi = Ok v' ->
  t_slice (places v) axis lo hi = Ok (places v').
Proof.
  intros Hl H. unfold v_slice in H. unfold t_slice. cbn [shp places]. destruct (axis <? length (a_shp v)) eqn:E; [|discriminate]. injection H as <-. apply Nat.ltb_lt in E. unfold places. cbn [a_shp a_str a_off].
  apply tabulate_places. destruct v as [b off s st]. cbn [a_buf a_off a_shp a_str dat shp] in *. set (a := slice_bound (nth axis s 0) lo). set (c := slice_bound (nth axis s 0) hi).
  assert (Hc : c <= nth axis s 0) by (unfold c, slice_bound; lia). clearbody a c. intros idx Hi.
  assert (G : inb s (replace_nth axis (a + nth axis idx 0) idx) = true /\ dot st (replace_nth axis (a + nth axis idx 0) idx) = (nth axis st 0%Z * Z.of_nat a + dot st idx)%Z).
  { revert axis E Hc idx Hi st Hl. unfold replace_nth. induction s as [|d s IH]; intros axis E Hc idx Hi [|x st] Hl; try (cbn in E; lia); try discriminate. cbn [length] in Hl. injection Hl as Hl.
    destruct axis as [|axis].
    - cbn in Hi |- *. destruct idx as [|i idx]; [discriminate|]. apply inb_cons in Hi as [H1 H2]. cbn [nth] in *. split; [apply inb_cons; split; [lia|exact H2]|]. lia.
    - cbn [firstn skipn app nth] in *. destruct idx as [|i idx]; [discriminate|]. apply inb_cons in Hi as [H1 H2]. cbn in E. destruct (IH axis ltac:(lia) Hc idx H2 st Hl) as [G1 G2].
      cbn [firstn skipn app nth dot]. split; [apply inb_cons; split; [exact H1|exact G1]|]. rewrite G2. lia. }
  destruct G as [G1 G2]. rewrite places_get by exact G1. rewrite G2. f_equal. lia.
Qed.

Lemma dot_c_strides s : forall idx, inb s idx = true -> dot (c_strides s) idx = Z.of_nat (ravel s idx).
Proof.
  induction s as [|d s IH]; intros [|i idx] H; try discriminate; [reflexivity|]. apply inb_cons in H as [_ H]. cbn [c_strides dot ravel]. rewrite (IH _ H). lia.
Qed.
Lemma c_strides_length s : length (c_strides s) = length s.
Proof. induction s as [|d s IH]; cbn; congruence. Qed.
Lemma c_places s : places_of 0 s (c_strides s) = map Z.of_nat (seq 0 (prodn s)).
Proof.
  unfold places_of. rewrite <- indices_ravel, map_map. apply map_ext_in. intros idx H. apply indices_In in H. rewrite (dot_c_strides _ _ H). lia.
Qed.

Section Shows.
  Context {A : Type} (mem : memory A).
  Notation shows := (shows mem).
  Lemma lookup_at b k a : at_place mem b k a <-> lookup mem b k = Ok a.
  Proof.
    unfold at_place, lookup. destruct (k <? 0)%Z eqn:E; [apply Z.ltb_lt in E; split; [lia|discriminate]|apply Z.ltb_ge in E]. destruct (nth_error (contents mem b) (Z.to_nat k)) as [c|]; cbn.
    - split; [intros [_ H]; congruence|intros H; split; [exact E|congruence]].
    - split; [intros [_ H]; discriminate|discriminate].
  Qed.
  Lemma read_iff v t : length (a_str v) = length (a_shp v) -> (shows v t <-> read mem v = Ok t).
  Proof.
    intros Hl. unfold SpecStrides.shows, read, alike. cbn [shp places]. split.
    - intros [_ [Es F]]. destruct t as [s d]. cbn [shp dat] in *. subst s.
      assert (E : mapM (lookup mem (a_buf v)) (places_of (a_off v) (a_shp v) (a_str v)) = Ok d); [|cbn [places dat]; rewrite E; reflexivity].
      clear Hl. cbn [places dat] in F. induction F as [|k a l d H F IH]; [reflexivity|]. cbn [mapM]. apply lookup_at in H. rewrite H. cbn [bind]. rewrite IH. reflexivity.
    - intros H. apply bind_Ok in H as [d [E H]]. injection H as <-. split; [exact Hl|]. split; [reflexivity|]. cbn [dat places] in *. revert d E. 
      induction (places_of (a_off v) (a_shp v) (a_str v)) as [|k l IH]; intros d E; cbn [mapM] in E; [injection E as <-; constructor|].
      apply bind_Ok in E as [a [E1 E]]. apply bind_Ok in E as [d' [E2 E]]. injection E as <-. constructor; [apply lookup_at, E1|apply IH, E2].
  Qed.
  Lemma shows_read v t : shows v t -> read mem v = Ok t.
  Proof. intros H. apply (read_iff v t (proj1 H)), H. Qed.
  Lemma shows_fun v t t' : shows v t -> shows v t' -> t = t'.
  Proof. intros H H'. apply shows_read in H. apply shows_read in H'. congruence. Qed.
  Lemma shows_wf v t : shows v t -> wf t /\ shp t = a_shp v.
  Proof. intros [_ [Es F]]. cbn [shp places] in Es. split; [|congruence]. unfold wf. rewrite <- (Forall2_len F), <- Es. cbn [places dat]. apply places_length. Qed.
  Lemma fresh_shows t : wf t -> shows (fresh t) t.
  Proof.
    intros Hw. split; [apply c_strides_length|]. split; [reflexivity|]. unfold fresh, places. cbn [dat a_buf a_off a_shp a_str]. rewrite c_places. rewrite <- Hw. apply (Forall2_map_l (at_place mem (New (dat t))) Z.of_nat).
    assert (G : forall pre l, Forall2 (fun a b => at_place mem (New (pre ++ l)) (Z.of_nat a) b) (seq (length pre) (length l)) l).
    { intros pre l. revert pre. induction l as [|a l IH]; intros pre; [constructor|]. cbn [length seq]. constructor.
      - split; [lia|]. cbn [contents]. rewrite Nat2Z.id, nth_error_app2, Nat.sub_diag by lia. reflexivity.
      - specialize (IH (pre ++ [a])). rewrite <- app_assoc, app_length in IH. cbn [app length] in IH. replace (length pre + 1) with (S (length pre)) in IH by lia. exact IH. }
    exact (G [] (dat t)).
  Qed.
  (** an operation that returns a view *)
  Lemma view_shows v t (m : result (array A)) (f : forall B, tensor B -> result (tensor B)) :
    (forall (B C : Type) (R : B -> C -> Prop) (x : tensor B) (y : tensor C), alike R x y -> both (alike R) (f B x) (f C y)) ->
    (forall v', m = Ok v' -> a_buf v' = a_buf v /\ length (a_str v') = length (a_shp v') /\ f Z (places v) = Ok (places v')) ->
    (forall ex, m = Err ex -> f Z (places v) = Err ex) ->
    shows v t -> both shows m (f A t).
  Proof.
    intros Hf Hok Herr [Hl H]. pose proof (Hf _ _ _ _ _ H) as G. destruct m as [v'|ex].
    - destruct (Hok v' eq_refl) as (Eb & El & E). rewrite E in G. destruct (f A t) as [t'|]; [|contradiction]. cbn in *. split; [exact El|]. rewrite Eb. exact G.
    - rewrite (Herr ex eq_refl) in G. destruct (f A t) as [t'|]; [contradiction|]. exact G.
  Qed.
End Shows.
