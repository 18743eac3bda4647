(** * Witnesses for C77 *)
From Coq Require Import QArith.
From Verif Require Import Py Tensor SpecSem SpecGrammar SpecForms SpecPattern SpecOps SpecElements SpecEinMix SpecInitial
  Parsing Recipe Ops Backends Einsum Api Layers EinMix Flax Initial InitialFacts Instances.
Open Scope Q_scope.

Lemma flax_one_sided : exists (F : flax_mix) (w : tensor Q),
  flax_setup (mkR Q ascii_unicode forward Numpy true (fun _ _ => Err BackendError) (fun _ => true) (fun n => inject_Z (Z.of_nat n)))
    (lit "b c -> b d") (lit "c d") None [(lit "c", 3%Z); (lit "d", 2%Z)] = Ok F /\
  answers (fst (flax_requests F)) w /\ ~ answers (fst (flax_requests F)) (t_map Qopp w).
Proof.
  eexists. exists (mkT [3%nat; 2%nat] [1; 1; 1; 1; 1; 1]). split; [vm_compute; reflexivity|]. split.
  - split; [reflexivity|]. split; [reflexivity|]. cbn [fst flax_requests create_parameters dat parameter q_low q_high].
    repeat constructor; unfold at_least, at_most; cbn; try (right; discriminate); discriminate.
  - intros H. apply flax_positive in H. inversion H as [|? ? X _]; subst. apply X. reflexivity.
Qed.
Lemma more_products : exists (L R W : expr) (M : einmix (tensor Z)) (len : label -> nat),
  reads ascii_unicode (lit "b c d -> b") L R /\ written ascii_unicode (lit "c") W /\
  EinMix ascii_unicode (fun _ => forward) (fun _ => backward) (lit "b c d -> b") (lit "c") None [(lit "c", 3%Z)] = Ok M /\
  fits len (left_groups 0 L) (right_groups 0 L R) [1%nat; 3%nat; 2%nat] [(lit "c", 3%Z)] /\
  em_fan_in M = 3%Z /\ prodn (map len (missing (left_groups 0 L) (right_groups 0 L R))) = 6%nat.
Proof.
  exists [nm "b"; nm "c"; nm "d"], [nm "b"], [nm "c"]. eexists.
  exists (fun a => match a with LName s => if str_eqb s (lit "c") then 3%nat else if str_eqb s (lit "d") then 2%nat else 1%nat | _ => 1%nat end).
  split; [solve_reads (lit "b c d ") (lit " b")|]. split; [unfold written; solve_written|]. split; [vm_compute; reflexivity|]. split; [solve_fits|]. split; reflexivity.
Qed.
