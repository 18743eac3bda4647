(** * Simulation: one dimension type and backend by another *)
From Verif Require Import Py Tensor Parsing Recipe Ops Backends.

(** if the second succeeds, so does the first, with a related value *)
Definition rsim {A B} (R : A -> B -> Prop) (m1 : result A) (m2 : result B) : Prop :=
  forall b, m2 = Ok b -> exists a, m1 = Ok a /\ R a b.

Lemma rsim_ok : forall {A B} (R : A -> B -> Prop) a b, R a b -> rsim R (Ok a) (Ok b).
Proof. intros A B R a b H b' E. injection E as <-. eauto. Qed.
Lemma rsim_err : forall {A B} (R : A -> B -> Prop) m e, rsim R m (Err e).
Proof. intros A B R m e b E. discriminate. Qed.
Lemma rsim_bind : forall {A B C D} (R : A -> B -> Prop) (Q : C -> D -> Prop) m1 m2 f g,
  rsim R m1 m2 -> (forall a b, R a b -> rsim Q (f a) (g b)) -> rsim Q (bind m1 f) (bind m2 g).
Proof.
  intros A B C D R Q m1 m2 f g H1 H2 b E. destruct m2 as [b2|e]; [|discriminate].
  destruct (H1 b2 eq_refl) as (a & -> & Hab). exact (H2 a b2 Hab b E).
Qed.
Lemma rsim_same : forall {A} (m : result A), rsim eq m m.
Proof. intros A m b E. eauto. Qed.
Lemma rsim_weaken : forall {A B} (R Q : A -> B -> Prop) m1 m2, (forall a b, R a b -> Q a b) -> rsim R m1 m2 -> rsim Q m1 m2.
Proof. intros A B R Q m1 m2 HW H b E. destruct (H b E) as (a & -> & Hab). eauto. Qed.

Lemma rsim_mapM : forall {A B C D} (P : A -> B -> Prop) (R : C -> D -> Prop) f g l1 l2,
  Forall2 P l1 l2 -> (forall a b, P a b -> rsim R (f a) (g b)) -> rsim (Forall2 R) (mapM f l1) (mapM g l2).
Proof.
  intros A B C D P R f g l1 l2 H Hf. induction H as [|a b l1 l2 Hab _ IH]; [apply rsim_ok; constructor|].
  cbn [mapM]. apply (rsim_bind R); [auto|]. intros y1 y2 Hy. apply (rsim_bind (Forall2 R)); [exact IH|].
  intros ys1 ys2 Hys. apply rsim_ok. constructor; assumption.
Qed.
Lemma rsim_foldM : forall {A B C D} (P : A -> B -> Prop) (R : C -> D -> Prop) f g l1 l2,
  Forall2 P l1 l2 -> (forall c d a b, R c d -> P a b -> rsim R (f c a) (g d b)) ->
  forall c d, R c d -> rsim R (foldM f l1 c) (foldM g l2 d).
Proof.
  intros A B C D P R f g l1 l2 H Hf. induction H as [|a b l1 l2 Hab _ IH]; intros c d Hcd; [apply rsim_ok; assumption|].
  cbn [foldM]. apply (rsim_bind R); [auto|]. intros. apply IH. assumption.
Qed.
Lemma Forall2_len : forall {A B} {R : A -> B -> Prop} {l1 l2}, Forall2 R l1 l2 -> length l1 = length l2.
Proof. intros A B R l1 l2 H. induction H; cbn; congruence. Qed.
Lemma Forall2_same : forall {A} (l : list A), Forall2 eq l l.
Proof. intros A l. induction l; constructor; auto. Qed.
Lemma rsim_list_get : forall {A B} (R : A -> B -> Prop) l1 l2 i, Forall2 R l1 l2 -> rsim R (list_get l1 i) (list_get l2 i).
Proof.
  intros A B R l1 l2 i H. revert i. induction H as [|a b l1 l2 Hab _ IH]; intros [|i]; try apply rsim_err; [apply rsim_ok; assumption|].
  apply IH.
Qed.
Lemma rsim_list_upd : forall {A B} (R : A -> B -> Prop) l1 l2 i a b, Forall2 R l1 l2 -> R a b ->
  rsim (Forall2 R) (list_upd l1 i a) (list_upd l2 i b).
Proof.
  intros A B R l1 l2 i a b H Hab. revert i. induction H as [|x y l1 l2 Hxy H IH]; intros [|i]; try apply rsim_err.
  - apply rsim_ok. constructor; assumption.
  - cbn [list_upd]. apply (rsim_bind (Forall2 R)); [apply IH|]. intros. apply rsim_ok. constructor; assumption.
Qed.
Lemma Forall2_firstn : forall {A B} (R : A -> B -> Prop) n l1 l2, Forall2 R l1 l2 -> Forall2 R (firstn n l1) (firstn n l2).
Proof. intros A B R n l1 l2 H. revert n. induction H; intros [|n]; cbn; constructor; auto. Qed.
Lemma Forall2_skipn : forall {A B} (R : A -> B -> Prop) n l1 l2, Forall2 R l1 l2 -> Forall2 R (skipn n l1) (skipn n l2).
Proof. intros A B R n l1 l2 H. revert n. induction H; intros [|n]; cbn; try constructor; auto. Qed.
Lemma Forall2_map_l : forall {A B C} (R : C -> B -> Prop) (f : A -> C) l1 l2,
  Forall2 (fun a b => R (f a) b) l1 l2 <-> Forall2 R (map f l1) l2.
Proof.
  intros A B C R f l1 l2. split.
  - intros H; induction H; constructor; auto.
  - revert l2. induction l1 as [|a l1 IH]; intros l2 H; inversion H; subst; constructor; auto.
Qed.
Lemma Forall2_map_r : forall {A B C} (R : A -> C -> Prop) (f : B -> C) l1 l2,
  Forall2 (fun a b => R a (f b)) l1 l2 <-> Forall2 R l1 (map f l2).
Proof.
  intros A B C R f l1 l2. split.
  - intros H; induction H; constructor; auto.
  - revert l1. induction l2 as [|a l2 IH]; intros l1 H; inversion H; subst; constructor; auto.
Qed.

Definition optrel {A B} (R : A -> B -> Prop) (a : option A) (b : option B) : Prop :=
  match a, b with Some x, Some y => R x y | None, None => True | _, _ => False end.

(** [ev d z]: the dimension [d] turns out to be [z] *)
Record dim_sim {D} (O : dim_ops D) (ev : D -> Z -> Prop) : Prop := {
  ds_of : forall z, ev (d_of_Z O z) z;
  ds_int : forall d z z', d_int O d = Some z -> ev d z' -> z' = z;
  ds_mul : forall a b x y, ev a x -> ev b y -> ev (d_mul O a b) (x * y)%Z;
  ds_div : forall a b x y, ev a x -> ev b y -> y <> 0%Z -> exists q, d_floordiv O a b = Ok q /\ ev q (x / y)%Z
}.

Definition cooked_sim {D} (ev : D -> Z -> Prop) (k1 : cooked D) (k2 : cooked Z) : Prop :=
  optrel (Forall2 ev) (k_init k1) (k_init k2) /\ k_reorder k1 = k_reorder k2 /\ k_reduced k1 = k_reduced k2 /\
  Forall2 (fun a b => fst a = fst b /\ ev (snd a) (snd b)) (k_added k1) (k_added k2) /\
  optrel (Forall2 ev) (k_final k1) (k_final k2) /\ k_naxes k1 = k_naxes k2.

Section Reconstruct.
  Context {D} (O : dim_ops D) (ev : D -> Z -> Prop) (HO : dim_sim O ev).

  Lemma product_sim : forall l1 l2, Forall2 ev l1 l2 ->
    ev (product O l1) (product int_ops l2).
  Proof.
    unfold product. intros l1 l2 H. assert (G : forall a b, ev a b -> ev (fold_left (d_mul O) l1 a) (fold_left (d_mul int_ops) l2 b)).
    { induction H as [|x y l1 l2 Hxy _ IH]; intros a b Hab; [exact Hab|]. cbn [fold_left]. apply IH. apply (ds_mul _ _ HO); assumption. }
    apply G. apply (ds_of _ _ HO).
  Qed.

  Lemma both_ints_sim : forall a b x y p, ev a x -> ev b y -> both_ints O a b = Some p -> p = (x, y).
  Proof.
    unfold both_ints. intros a b x y p Ha Hb. destruct (d_int O a) eqn:Ea; [|discriminate]. destruct (d_int O b) eqn:Eb; [|discriminate].
    intros [= <-]. rewrite (ds_int _ _ HO _ _ _ Ea Ha), (ds_int _ _ HO _ _ _ Eb Hb). reflexivity.
  Qed.

  Let strel : list D * bool -> list Z * bool -> Prop := fun a b => Forall2 ev (fst a) (fst b) /\ snd a = snd b.

  Lemma infer_step_sim : forall s1 s2 st1 st2 x, Forall2 ev s1 s2 -> strel st1 st2 ->
    rsim strel (infer_step O s1 st1 x) (infer_step int_ops s2 st2 x).
  Proof.
    intros s1 s2 [al1 n1] [al2 n2] [i [known unknown]] Hs [Hal Hn]. cbn [fst snd] in Hal, Hn. subst n2.
    unfold infer_step. apply (rsim_bind ev); [apply rsim_list_get; exact Hs|]. intros l1 l2 Hl.
    assert (G : rsim strel
      (let* ks := mapM (list_get al1) known in
       let* al := match unknown with
          | [] => match both_ints O l1 (fold_left (d_mul O) ks (d_of_Z O 1)) with
                  | Some (l, k) => if (l =? k)%Z then Ok al1 else Err EinopsError | None => Ok al1 end
          | u :: _ => let* _ := match both_ints O l1 (fold_left (d_mul O) ks (d_of_Z O 1)) with
                        | Some (l, k) => if (k =? 0)%Z then Err ZeroDivisionError else raise_if (negb (l mod k =? 0)%Z) EinopsError
                        | None => Ok tt end in
                      let* q := d_floordiv O l1 (fold_left (d_mul O) ks (d_of_Z O 1)) in list_upd al1 u q
          end in Ok (al, if length known + length unknown =? 1 then n1 else true))
      (let* ks := mapM (list_get al2) known in
       let* al := match unknown with
          | [] => match both_ints int_ops l2 (fold_left (d_mul int_ops) ks (d_of_Z int_ops 1)) with
                  | Some (l, k) => if (l =? k)%Z then Ok al2 else Err EinopsError | None => Ok al2 end
          | u :: _ => let* _ := match both_ints int_ops l2 (fold_left (d_mul int_ops) ks (d_of_Z int_ops 1)) with
                        | Some (l, k) => if (k =? 0)%Z then Err ZeroDivisionError else raise_if (negb (l mod k =? 0)%Z) EinopsError
                        | None => Ok tt end in
                      let* q := d_floordiv int_ops l2 (fold_left (d_mul int_ops) ks (d_of_Z int_ops 1)) in list_upd al2 u q
          end in Ok (al, if length known + length unknown =? 1 then n1 else true))).
    { apply (rsim_bind (Forall2 ev)).
      { apply (rsim_mapM eq); [apply Forall2_same|]. intros a b <-. apply rsim_list_get. exact Hal. }
      intros ks1 ks2 Hks. pose proof (product_sim _ _ Hks) as Hp. unfold product in Hp.
      set (p1 := fold_left (d_mul O) ks1 (d_of_Z O 1)) in *. set (p2 := fold_left (d_mul int_ops) ks2 (d_of_Z int_ops 1)) in *.
      apply (rsim_bind (Forall2 ev)).
      2: { intros a b Hab. apply rsim_ok. split; [exact Hab|reflexivity]. }
      destruct unknown as [|u un].
      - destruct (both_ints O l1 p1) as [[l k]|] eqn:Eb.
        + apply (both_ints_sim _ _ l2 p2) in Eb; [|assumption|assumption]. injection Eb as -> ->.
          cbn. destruct (l2 =? p2)%Z; [apply rsim_ok; exact Hal|apply rsim_err].
        + cbn. destruct (l2 =? p2)%Z; [apply rsim_ok; exact Hal|apply rsim_err].
      - cbn. destruct (p2 =? 0)%Z eqn:E0; [apply rsim_err|].
        destruct (l2 mod p2 =? 0)%Z eqn:Em; [|apply rsim_err]. cbn.
        assert (N0 : p2 <> 0%Z) by (apply Z.eqb_neq; exact E0).
        destruct (ds_div _ _ HO _ _ _ _ Hl Hp N0) as (q & Eq & Hq).
        intros b Eb. destruct (rsim_list_upd ev al1 al2 u q _ Hal Hq b Eb) as (a & Ea & Hab).
        exists a. split; [|exact Hab].
        destruct (both_ints O l1 p1) as [[l k]|] eqn:Ebi.
        + apply (both_ints_sim _ _ l2 p2) in Ebi; [|assumption|assumption]. injection Ebi as -> ->.
          rewrite E0, Em. cbn. rewrite Eq. cbn. exact Ea.
        + cbn. rewrite Eq. cbn. exact Ea. }
    destruct known as [|k0 known]; [destruct unknown as [|u [|u' un]]|]; try exact G.
    apply (rsim_bind (Forall2 ev)); [apply rsim_list_upd; assumption|]. intros. apply rsim_ok. split; [assumption|reflexivity].
  Qed.

  Lemma reconstruct_sim : forall r s1 s2 z1 z2,
    Forall2 ev s1 s2 -> Forall2 (fun a b => fst a = fst b /\ ev (snd a) (snd b)) z1 z2 ->
    rsim (cooked_sim ev) (reconstruct O r s1 z1) (reconstruct int_ops r s2 z2).
  Proof.
    intros r s1 s2 z1 z2 Hs Hz. unfold reconstruct.
    apply (rsim_bind (Forall2 ev)).
    { apply (rsim_foldM _ (Forall2 ev) _ _ z1 z2 Hz).
      - intros c d [s a] [s' b] Hcd [E Hab]. cbn in E, Hab. subst s'.
        apply (rsim_bind eq); [apply rsim_same|]. intros p ? <-. apply rsim_list_upd; assumption.
      - generalize (r_elementary r). intros l. induction l; constructor; [apply (ds_of _ _ HO)|assumption]. }
    intros al1 al2 Hal. apply (rsim_bind strel).
    { apply (rsim_foldM eq strel _ _ _ _ (Forall2_same _)).
      - intros c d a b Hcd <-. apply infer_step_sim; assumption.
      - split; [exact Hal|reflexivity]. }
    intros [a1 n1] [a2 n2] [Ha En]. cbn in Ha, En. subst n2.
    apply (rsim_bind (Forall2 (Forall2 ev))).
    { apply (rsim_mapM eq); [apply Forall2_same|]. intros g ? <-. apply (rsim_mapM eq); [apply Forall2_same|].
      intros i ? <-. apply rsim_list_get. exact Ha. }
    intros g1 g2 Hg. apply (rsim_bind (Forall2 (fun a b => fst a = fst b /\ ev (snd a) (snd b)))).
    { apply (rsim_mapM eq); [apply Forall2_same|]. intros [p e] ? <-. apply (rsim_bind ev); [apply rsim_list_get; exact Ha|].
      intros. apply rsim_ok. split; [reflexivity|assumption]. }
    intros d1 d2 Hd. apply rsim_ok. unfold cooked_sim. cbn [k_init k_reorder k_reduced k_added k_final k_naxes].
    assert (Ef : existsb (fun g => negb (length g =? 1)) g1 = existsb (fun g => negb (length g =? 1)) g2).
    { induction Hg as [|x y g1 g2 Hxy _ IH]; [reflexivity|]. cbn [existsb]. rewrite IH, (Forall2_len Hxy). reflexivity. }
    split; [destruct n1; cbn; [apply Forall2_firstn; exact Ha|exact I]|].
    split; [reflexivity|]. split; [reflexivity|]. split; [exact Hd|].
    split; [rewrite Ef; destruct (existsb (fun g => negb (length g =? 1)) g2); cbn; [|exact I]|rewrite (Forall2_len Hd); reflexivity].
    clear Ef. induction Hg as [|x y g1 g2 Hxy _ IH]; constructor; [apply product_sim; exact Hxy|exact IH].
  Qed.
End Reconstruct.

(** simulation of backends *)
Record backend_sim {T1 D T2} (B1 : backend T1 D) (B2 : backend T2 Z) (ev : D -> Z -> Prop) (R : T1 -> T2 -> Prop) : Prop := {
  bs_shape : forall x y, R x y -> Forall2 ev (b_shape B1 x) (b_shape B2 y);
  bs_reshape : forall x y s1 s2, R x y -> Forall2 ev s1 s2 -> rsim R (b_reshape B1 x s1) (b_reshape B2 y s2);
  bs_transpose : forall x y p, R x y -> rsim R (b_transpose B1 x p) (b_transpose B2 y p);
  bs_reduce : forall x y s p, R x y -> rsim R (b_reduce B1 x s p) (b_reduce B2 y s p);
  bs_add_axes : forall x y n a1 a2, R x y -> Forall2 (fun a b => fst a = fst b /\ ev (snd a) (snd b)) a1 a2 ->
    rsim R (b_add_axes B1 x n a1) (b_add_axes B2 y n a2);
  bs_stack : forall xs ys, Forall2 R xs ys -> rsim R (b_stack B1 xs) (b_stack B2 ys)
}.

Definition red_sim {T1 T2} (R : T1 -> T2 -> Prop) (isf : T1 -> bool) (r1 : reduction T1) (r2 : reduction T2) : Prop :=
  match r1, r2 with
  | RStr s, RStr s' => s = s' /\ (s = lit "mean" -> forall x y, R x y -> isf x = true)
  | RCall f, RCall g => forall x y axes, R x y -> rsim R (f x axes) (g y axes)
  | _, _ => False
  end.
Definition input_sim {T1 T2} (R : T1 -> T2 -> Prop) (a : input T1) (b : input T2) : Prop :=
  match a, b with One x, One y => R x y | Many xs, Many ys => Forall2 R xs ys | _, _ => False end.

Section Api.
  Context {T1 D T2} (O : dim_ops D) (ev : D -> Z -> Prop) (HO : dim_sim O ev)
          (B1 : backend T1 D) (B2 : backend T2 Z) (R : T1 -> T2 -> Prop) (HB : backend_sim B1 B2 ev R).

  Lemma reduce_axes_sim : forall x y r1 r2 axes, R x y -> red_sim R (b_is_float B1) r1 r2 ->
    rsim R (reduce_axes B1 x r1 axes) (reduce_axes B2 y r2 axes).
  Proof.
    intros x y [s|f] [s'|g] axes Hxy Hr; cbn in Hr; try contradiction; cbn [reduce_axes]; [|apply Hr; exact Hxy].
    destruct Hr as [<- Hm]. apply (rsim_bind eq); [apply rsim_same|]. intros _ _ _.
    apply (rsim_bind (fun _ _ => True)).
    - destruct (str_eqb s (lit "mean")) eqn:E; cbn [andb].
      + unfold str_eqb in E. destruct (str_eq_dec s (lit "mean")) as [->|]; [|discriminate].
        rewrite (Hm eq_refl x y Hxy). cbn [negb]. destruct (b_is_float B2 y); [apply rsim_ok; exact I|apply rsim_err].
      + apply rsim_ok. exact I.
    - intros _ _ _. apply (bs_reduce _ _ _ _ HB). exact Hxy.
  Qed.

  Lemma apply_cooked_sim : forall k1 k2 x y r1 r2, cooked_sim ev k1 k2 -> R x y -> red_sim R (b_is_float B1) r1 r2 ->
    rsim R (apply_cooked B1 k1 x r1) (apply_cooked B2 k2 y r2).
  Proof.
    intros k1 k2 x y r1 r2 (Hi & Hp & Hr & Ha & Hf & Hn) Hxy Hred. unfold apply_cooked.
    apply (rsim_bind R).
    { destruct (k_init k1), (k_init k2); cbn in Hi; try contradiction; [apply (bs_reshape _ _ _ _ HB); assumption|apply rsim_ok; assumption]. }
    intros x1 y1 H1. apply (rsim_bind R).
    { rewrite Hp. destruct (k_reorder k2); [apply (bs_transpose _ _ _ _ HB); assumption|apply rsim_ok; assumption]. }
    intros x2 y2 H2. apply (rsim_bind R).
    { rewrite Hr. destruct (k_reduced k2) as [|a l]; [apply rsim_ok; assumption|]. apply reduce_axes_sim; assumption. }
    intros x3 y3 H3. apply (rsim_bind R).
    { rewrite Hn. destruct Ha as [|a b l1 l2 Hab Hl]; [apply rsim_ok; assumption|].
      apply (bs_add_axes _ _ _ _ HB); [assumption|constructor; assumption]. }
    intros x4 y4 H4. destruct (k_final k1), (k_final k2); cbn in Hf; try contradiction; [apply (bs_reshape _ _ _ _ HB); assumption|apply rsim_ok; assumption].
  Qed.

  Lemma api_reduce_sim : forall U o x y p r1 r2 z1 z2,
    input_sim R x y -> red_sim R (b_is_float B1) r1 r2 -> op_of r1 = op_of r2 ->
    Forall2 (fun a b => fst a = fst b /\ ev (snd a) (snd b)) z1 z2 ->
    rsim R (api_reduce U o O B1 x p r1 z1) (api_reduce U o int_ops B2 y p r2 z2).
  Proof.
    intros U o x y p r1 r2 z1 z2 Hx Hr Ho Hz. unfold api_reduce.
    assert (Ek : map fst z1 = map fst z2).
    { induction Hz as [|a b l1 l2 [E _] _ IH]; [reflexivity|]. cbn [map]. rewrite E, IH. reflexivity. }
    assert (Ec : check_kwargs reserved_kwargs z1 = check_kwargs reserved_kwargs z2).
    { unfold check_kwargs. f_equal. clear -Hz. induction Hz as [|[a d] [b z] l1 l2 [E _] _ IH]; [reflexivity|]. cbn in E. subst b. cbn [existsb]. rewrite IH. reflexivity. }
    rewrite Ec, Ek, Ho. apply (rsim_bind eq); [apply rsim_same|]. intros _ _ _. apply (rsim_bind R).
    { destruct x as [x|xs], y as [y|ys]; cbn in Hx; try contradiction; cbn [stack_input]; [apply rsim_ok; exact Hx|].
      destruct Hx as [|a b l1 l2 Hab Hl]; [apply rsim_err|]. apply (bs_stack _ _ _ _ HB). constructor; assumption. }
    intros t1 t2 Ht. pose proof (bs_shape _ _ _ _ HB _ _ Ht) as Hs. rewrite (Forall2_len Hs).
    apply (rsim_bind eq); [apply rsim_same|]. intros rc ? <-. unfold apply_recipe.
    apply (rsim_bind (cooked_sim ev)); [apply reconstruct_sim; assumption|]. intros k1 k2 Hk. apply apply_cooked_sim; assumption.
  Qed.
End Api.
