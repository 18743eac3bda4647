(** * A reshape that meets the assumptions of SpecStrides.v

    Not a model of a particular library: it shows that the assumptions can be met, and
    serves in examples.  Numpy's own rule (_attempt_nocopy_reshape) returns views in more
    cases. *)
From Verif Require Import Py Tensor ListFacts TensorFacts ReduceFacts Strides SpecStrides StrideFacts StrideFacts2.

(** take dimensions with product [d] from the front; [p] is the product so far *)
Fixpoint take_dims (d p : nat) (s : list nat) : option (list nat * list nat) :=
  if p =? d then Some ([], s)
  else match s with [] => None | m :: s' => option_map (fun '(g, rest) => (m :: g, rest)) (take_dims d (p * m) s') end.
(** split the dimensions one after the other *)
Fixpoint split_dims (s : list nat) (st : list Z) (s' : list nat) : option (list Z) :=
  match s, st with
  | [], [] => if forallb (Nat.eqb 1) s' then Some (map (fun _ => 0%Z) s') else None
  | d :: s1, z :: st1 =>
      match take_dims d 1 s' with
      | Some (g, rest) => option_map (app (map (Z.mul z) (c_strides g))) (split_dims s1 st1 rest)
      | None => None
      end
  | _, _ => None
  end.
Definition simple_nocopy (s : list nat) (st : list Z) (s' : list nat) : option (list Z) :=
  if prodn s =? 0 then Some (map (fun _ => 0%Z) s')
  else match split_dims s st s' with
       | Some st' => Some st'
       | None => if list_eq_dec Z.eq_dec st (c_strides s) then Some (c_strides s') else None   (* contiguous *)
       end.

Lemma take_spec d s : forall p g rest, take_dims d p s = Some (g, rest) -> s = g ++ rest /\ p * prodn g = d.
Proof.
  induction s as [|m s IH]; intros p g rest H; cbn [take_dims] in H; destruct (p =? d) eqn:E.
  - injection H as <- <-. apply Nat.eqb_eq in E. split; [reflexivity|]. cbn. lia.
  - discriminate.
  - injection H as <- <-. apply Nat.eqb_eq in E. split; [reflexivity|]. cbn. lia.
  - destruct (take_dims d (p * m) s) as [[g' rest']|] eqn:Et; [|discriminate]. injection H as <- <-. destruct (IH _ _ _ Et) as [-> E2]. split; [reflexivity|]. rewrite prodn_cons. lia.
Qed.
Lemma map_flat {X Y C} (f : Y -> C) (g : X -> list Y) l : map f (flat_map g l) = flat_map (fun x => map f (g x)) l.
Proof. rewrite !flat_map_concat_map, concat_map, map_map. reflexivity. Qed.
Lemma flat_map_map {X Y C} (f : X -> Y) (g : Y -> list C) l : flat_map g (map f l) = flat_map (fun x => g (f x)) l.
Proof. rewrite !flat_map_concat_map, map_map. reflexivity. Qed.
Lemma dot_two st1 st2 : forall i j, length st1 = length i -> dot (st1 ++ st2) (i ++ j) = (dot st1 i + dot st2 j)%Z.
Proof. induction st1 as [|z st1 IH]; intros [|n i] j H; try discriminate; [reflexivity|]. cbn in *. rewrite IH by lia. lia. Qed.
Lemma dot_scale z st : forall i, dot (map (Z.mul z) st) i = (z * dot st i)%Z.
Proof. induction st as [|a st IH]; intros [|n i]; cbn; try lia. rewrite IH. lia. Qed.
Lemma flat_map_in_ext {X Y} (f g : X -> list Y) l : (forall x, In x l -> f x = g x) -> flat_map f l = flat_map g l.
Proof. intros H. rewrite !flat_map_concat_map. f_equal. apply map_ext_in, H. Qed.
Lemma places_split z g rest st' s st : (forall off, places_of off rest st' = places_of off s st) ->
  forall off, places_of off (g ++ rest) (map (Z.mul z) (c_strides g) ++ st') = places_of off (prodn g :: s) (z :: st).
Proof.
  intros H off. unfold places_of. rewrite indices_app, map_flat. cbn [indices]. rewrite map_flat.
  transitivity (flat_map (fun n => places_of (off + z * Z.of_nat n) rest st') (map (ravel g) (indices g))).
  - rewrite flat_map_map. apply flat_map_in_ext. intros i Hi. rewrite map_map. unfold places_of. apply map_ext. intros j.
    apply indices_In in Hi. rewrite dot_two by (rewrite map_length, c_strides_length; symmetry; apply inb_length, Hi). rewrite dot_scale, dot_c_strides by exact Hi. lia.
  - rewrite indices_ravel. apply flat_map_in_ext. intros n _. rewrite H. unfold places_of. rewrite map_map. apply map_ext. intros j. cbn [dot]. lia.
Qed.
Lemma ones_places off s : forallb (Nat.eqb 1) s = true -> places_of off s (map (fun _ => 0%Z) s) = [off].
Proof.
  induction s as [|d s IH]; intros H; [unfold places_of; cbn; f_equal; lia|]. cbn [forallb] in H. apply andb_prop in H as [H1 H2]. apply Nat.eqb_eq in H1. subst d.
  specialize (IH H2). unfold places_of in *. cbn [map indices seq flat_map]. rewrite app_nil_r, map_map. rewrite <- IH. apply map_ext. intros j. cbn [dot]. lia.
Qed.
Lemma split_sound s : forall st s' st', split_dims s st s' = Some st' -> length st' = length s' /\ forall off, places_of off s' st' = places_of off s st.
Proof.
  induction s as [|d s IH]; intros [|z st] s' st' H; cbn [split_dims] in H; try discriminate.
  - destruct (forallb _ _) eqn:E; [|discriminate]. injection H as <-. split; [apply map_length|]. intros off. rewrite (ones_places _ _ E). unfold places_of. cbn. f_equal. lia.
  - destruct (take_dims d 1 s') as [[g rest]|] eqn:Et; [|discriminate]. destruct (split_dims s st rest) as [st1|] eqn:E1; [|discriminate]. cbn in H. injection H as <-.
    apply take_spec in Et as [-> Ed]. rewrite Nat.mul_1_l in Ed. subst d. destruct (IH _ _ _ E1) as [I1 I2]. split; [rewrite !app_length, map_length, c_strides_length; lia|]. apply places_split, I2.
Qed.
Lemma take_ones j d rest : d <> 1 -> take_dims d 1 (repeat 1 j ++ rest) = option_map (fun '(g, r) => (repeat 1 j ++ g, r)) (take_dims d 1 rest).
Proof.
  intros Hd. induction j as [|j IH]; [cbn [repeat app]; destruct (take_dims d 1 rest) as [[g r]|]; reflexivity|]. cbn [repeat app take_dims].
  destruct (1 =? d) eqn:E; [apply Nat.eqb_eq in E; congruence|]. cbn [Nat.mul Nat.add]. rewrite IH. destruct (take_dims d 1 rest) as [[g r]|]; reflexivity.
Qed.
Lemma ones_of s : prodn s = 1 -> s = repeat 1 (length s).
Proof. induction s as [|d s IH]; intros H; [reflexivity|]. rewrite prodn_cons in H. apply Nat.eq_mul_1 in H as [-> H]. cbn [length repeat]. f_equal. apply IH, H. Qed.
Lemma take_group g rest : forall p, p <> 0 -> prodn g <> 0 -> exists g1 k, take_dims (p * prodn g) p (g ++ rest) = Some (g1, repeat 1 k ++ rest).
Proof.
  induction g as [|m g IH]; intros p Hp Hg.
  - exists [], 0. rewrite prodn_nil, Nat.mul_1_r. cbn [app repeat]. destruct rest; cbn [take_dims]; rewrite Nat.eqb_refl; reflexivity.
  - cbn [app take_dims]. destruct (p =? p * prodn (m :: g)) eqn:E.
    + apply Nat.eqb_eq in E. assert (E1 : prodn (m :: g) = 1) by nia. apply ones_of in E1. exists [], (length (m :: g)). rewrite <- E1. reflexivity.
    + rewrite prodn_cons in Hg |- *. destruct (IH (p * m)) as (g1 & k & H); [nia|nia|]. exists (m :: g1), k. rewrite Nat.mul_assoc, H. reflexivity.
Qed.
Lemma split_complete gs : forall st k, length st = length gs -> prodn (map prodn gs) <> 0 -> split_dims (map prodn gs) st (repeat 1 k ++ concat gs) <> None.
Proof.
  induction gs as [|g gs IH]; intros [|z st] k Hl Hp; try discriminate.
  - cbn [map split_dims concat]. rewrite app_nil_r. assert (E : forallb (Nat.eqb 1) (repeat 1 k) = true) by (clear; induction k; [reflexivity|exact IHk]). rewrite E. discriminate.
  - cbn [map split_dims concat]. cbn [map] in Hp. rewrite prodn_cons in Hp. cbn [length] in Hl. injection Hl as Hl.
    assert (E : exists g1 j, take_dims (prodn g) 1 (repeat 1 k ++ g ++ concat gs) = Some (g1, repeat 1 j ++ concat gs)).
    { destruct (Nat.eq_dec (prodn g) 1) as [E|E].
      - exists [], (k + length g). rewrite E. rewrite (ones_of g E) at 1. rewrite repeat_app, <- app_assoc. destruct (repeat 1 k ++ _); reflexivity.
      - rewrite (take_ones _ _ _ E). destruct (take_group g (concat gs) 1) as (g1 & j & H); [lia|nia|]. rewrite Nat.mul_1_l in H. rewrite H. cbn. eauto. }
    destruct E as (g1 & j & ->). pose proof (IH st j Hl ltac:(nia)) as G. destruct (split_dims _ _ _); [discriminate|contradiction].
Qed.
Lemma places_empty off s st : prodn s = 0 -> places_of off s st = [].
Proof. intros H. pose proof (places_length off s st) as L. rewrite H in L. destruct (places_of off s st); [reflexivity|discriminate]. Qed.
Lemma c_places_off off s : places_of off s (c_strides s) = map (fun n => off + Z.of_nat n)%Z (seq 0 (prodn s)).
Proof. unfold places_of. rewrite <- indices_ravel, map_map. apply map_ext_in. intros i Hi. apply indices_In in Hi. rewrite dot_c_strides by exact Hi. reflexivity. Qed.
Lemma simple_nocopy_ok : nocopy_ok simple_nocopy.
Proof.
  split.
  - intros s st s' st' Hl Hp H. unfold simple_nocopy in H. destruct (prodn s =? 0) eqn:E0.
    + apply Nat.eqb_eq in E0. injection H as <-. split; [apply map_length|]. intros off. rewrite !places_empty by congruence. reflexivity.
    + destruct (split_dims s st s') eqn:Es; [injection H as <-; eapply split_sound, Es|]. destruct (list_eq_dec _ _ _) as [->|]; [|discriminate]. injection H as <-. split; [apply c_strides_length|].
      intros off. rewrite !c_places_off, Hp. reflexivity.
  - intros gs st k Hl. unfold simple_nocopy. destruct (_ =? 0) eqn:E0; [discriminate|]. apply Nat.eqb_neq in E0. pose proof (split_complete gs st k Hl E0) as G. destruct (split_dims _ _ _); [discriminate|contradiction].
  - intros s st s' _ H _. unfold simple_nocopy. rewrite H. discriminate.
Qed.
