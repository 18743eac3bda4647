(** * C101: what the tests of EinMix look at *)
From Verif Require Import Py Tensor SpecSem SpecGrammar SpecPattern SpecOps SpecEinMix SpecDebugger
  Parsing Recipe Ops Backends Api Layers Einsum EinMix Debugger Instances ParseFacts DebuggerFacts PropEinMix.

(** a layer can only be made when the debugging class accepts the same arguments; shapes of the
    parameters and the pattern of einsum are those that were saved, and the layers around
    einsum are the Rearrange layers for the saved patterns and lengths *)
Theorem C101_layer : forall (T : Type) (U : unicode) (os os' : nat -> orders) (pattern weight_text : pystr) (bias_text : option pystr) (sizes : list (pystr * Z)) (M : einmix T),
  EinMix U os os' pattern weight_text bias_text sizes = Ok M ->
  exists D, debugger U pattern weight_text bias_text sizes = Ok D /\ db_weight D = em_weight M /\ db_bias D = em_bias M /\ db_einsum D = em_einsum M /\
    match db_pre D with Some (q, lengths) => exists P, Rearrange U os q lengths = Ok P /\ em_pre M = Some P | None => em_pre M = None end /\
    match db_post D with Some q => exists P, Rearrange U os' q (db_post_lengths D) = Ok P /\ em_post M = Some P | None => em_post M = None end.
Proof. exact (fun T U os os' pattern wt bt sizes M => layer_debugged U os os' pattern wt bt sizes M). Qed.
Print Assumptions C101_layer.

(** the other way round, only those layers could fail *)
Theorem C101_both : forall (T : Type) (U : unicode) (os os' : nat -> orders) (pattern weight_text : pystr) (bias_text : option pystr) (sizes : list (pystr * Z)) (D : debugged),
  debugger U pattern weight_text bias_text sizes = Ok D ->
  ((exists M : einmix T, EinMix U os os' pattern weight_text bias_text sizes = Ok M) <->
   match db_pre D with Some (q, lengths) => exists P : layer T, Rearrange U os q lengths = Ok P | None => True end /\
   match db_post D with Some q => exists P : layer T, Rearrange U os' q (db_post_lengths D) = Ok P | None => True end).
Proof. exact (fun T U os os' pattern wt bt sizes D => debugged_layer U os os' pattern wt bt sizes D). Qed.
Print Assumptions C101_both.

(** and they fail only when two lengths of a group of the input are unknown *)
Theorem C101_groups : forall (T : Type) (U : unicode) (os os' : nat -> orders) (pattern weight_text : pystr) (bias_text : option pystr) (sizes : list (pystr * Z))
    (L R W : expr) (D : debugged),
  unicode_ok U -> (forall n, orders_ok (os n)) -> (forall n, orders_ok (os' n)) -> NoDup (map fst sizes) ->
  reads U pattern L R -> written U weight_text W -> plain L -> plain R -> plain W -> debugger U pattern weight_text bias_text sizes = Ok D ->
  ((exists M : einmix T, EinMix U os os' pattern weight_text bias_text sizes = Ok M) <->
   forall g, In g (left_groups 0 L) -> length (filter (unknown (map fst sizes)) g) <= 1).
Proof. exact (fun T U os os' pattern wt bt sizes L R W D HU Ho Ho' Hn => debugged_groups U HU os os' Ho Ho' pattern wt bt sizes Hn L R W D). Qed.
Print Assumptions C101_groups.

(** which arguments the debugging class accepts *)
Theorem C101_accepts : forall (U : unicode) (pattern weight_text : pystr) (bias_text : option pystr) (sizes : list (pystr * Z)),
  unicode_ok U -> NoDup (map fst sizes) -> (forall L R, reads U pattern L R -> plain L /\ plain R) -> (forall W, written U weight_text W -> plain W) ->
  ((exists D, debugger U pattern weight_text bias_text sizes = Ok D) <->
   exists L R W, reads U pattern L R /\ written U weight_text W /\ debug_ok U bias_text sizes L R W).
Proof. exact (fun U pattern wt bt sizes HU Hn => debugger_accepts U HU pattern wt bt sizes Hn). Qed.
Print Assumptions C101_accepts.

(** what is saved: nothing where there is nothing to reshape, else a pattern between the side
    as written and its axes one by one, before with the lengths of just its names *)
Theorem C101_saved : forall (U : unicode) (pattern weight_text : pystr) (bias_text : option pystr) (sizes : list (pystr * Z)) (L R W : expr) (D : debugged),
  unicode_ok U -> NoDup (map fst sizes) -> reads U pattern L R -> written U weight_text W -> plain L -> plain R -> plain W ->
  debugger U pattern weight_text bias_text sizes = Ok D ->
  match db_pre D with
  | None => one_each L
  | Some (q, lengths) => ~ one_each L /\ reads U q L (spread L) /\ forall s z, In (s, z) lengths <-> In (s, z) sizes /\ In s (written_names L)
  end /\
  match db_post D with
  | None => one_each R /\ open_dots R
  | Some q => ~ (one_each R /\ open_dots R) /\ reads U q (spread R) R
  end /\ db_post_lengths D = [].
Proof. exact (fun U pattern wt bt sizes L R W D HU Hn Hr WW PL PR PW => debugger_saves U HU pattern wt bt sizes Hn L R W Hr WW PL PR PW D). Qed.
Print Assumptions C101_saved.

Theorem C101_shapes : forall (U : unicode) (pattern weight_text : pystr) (bias_text : option pystr) (sizes : list (pystr * Z)) (L R W : expr) (D : debugged) (len : pystr -> Z),
  unicode_ok U -> NoDup (map fst sizes) -> reads U pattern L R -> written U weight_text W -> plain L -> plain R -> plain W ->
  debugger U pattern weight_text bias_text sizes = Ok D -> (forall s z, In (s, z) sizes -> len s = z) ->
  db_weight D = weight_dims len W /\
  match bias_text with None => db_bias D = None | Some text => exists B, written U text B /\ db_bias D = Some (bias_dims len B R) end.
Proof. exact (fun U pattern wt bt sizes L R W D len HU Hn Hr WW PL PR PW HD => debugger_shapes U HU pattern wt bt sizes Hn L R W Hr WW PL PR PW D HD len). Qed.
Print Assumptions C101_shapes.

(** ** cases: those of einops/tests/test_layers.py:351-435 *)
Example C101_case_plain :
  debugger ascii_unicode (lit "a b c d e -> e d c b a") (lit "d a b") None [(lit "d", 2%Z); (lit "a", 3%Z); (lit "b", 5%Z)] =
    Ok (mkDebugged None None [] [2; 3; 5]%Z None (lit "abcde,dab->edcba")) /\
  debugger ascii_unicode (lit "a b c d e -> e d c b a") (lit "d a b") (Some (lit "a b c d e"))
      [(lit "a", 1%Z); (lit "b", 2%Z); (lit "c", 3%Z); (lit "d", 4%Z); (lit "e", 5%Z)] =
    Ok (mkDebugged None None [] [4; 1; 2]%Z (Some [5; 4; 3; 2; 1]%Z) (lit "abcde,dab->edcba")) /\
  debugger ascii_unicode (lit "... -> ...") (lit "") (Some (lit "")) [] = Ok (mkDebugged None None [] [] (Some []) (lit "...,->...")) /\
  debugger ascii_unicode (lit "b a ...  -> b c ...") (lit "b a c") None [(lit "a", 1%Z); (lit "b", 2%Z); (lit "c", 3%Z)] =
    Ok (mkDebugged None None [] [2; 1; 3]%Z None (lit "ba...,bac->bc...")).
Proof. repeat split; vm_compute; reflexivity. Qed.
Example C101_case_grouped :
  debugger ascii_unicode (lit "(b a) ... -> b c (...)") (lit "b a c") None [(lit "a", 1%Z); (lit "b", 2%Z); (lit "c", 3%Z)] =
    Ok (mkDebugged (Some (lit "(b a) ... -> b a ...", [(lit "a", 1%Z); (lit "b", 2%Z)])) (Some (lit "b c ... -> b c (...)")) [] [2; 1; 3]%Z None (lit "ba...,bac->bc...")) /\
  debugger ascii_unicode (lit "b ... (a c) -> b ... (a d)") (lit "c d") (Some (lit "a d")) [(lit "a", 1%Z); (lit "c", 3%Z); (lit "d", 4%Z)] =
    Ok (mkDebugged (Some (lit "b ... (a c) -> b ... a c", [(lit "a", 1%Z); (lit "c", 3%Z)])) (Some (lit "b ... a d -> b ... (a d)")) [] [3; 4]%Z (Some [1; 1; 4]%Z) (lit "b...ac,cd->b...ad")) /\
  debugger ascii_unicode (lit "a ... (b c) -> a (... d b)") (lit "c d b") (Some (lit "d b")) [(lit "b", 2%Z); (lit "c", 3%Z); (lit "d", 4%Z)] =
    Ok (mkDebugged (Some (lit "a ... (b c) -> a ... b c", [(lit "b", 2%Z); (lit "c", 3%Z)])) (Some (lit "a ... d b -> a (... d b)")) [] [3; 4; 2]%Z (Some [1; 4; 2]%Z) (lit "a...bc,cdb->a...db")).
Proof. repeat split; vm_compute; reflexivity. Qed.
(** the hypotheses hold, and two unknown lengths make the difference *)
Example C101_case_unknown :
  let pattern := lit "(b a) c -> b a d" in let L := [grp [lit "b"; lit "a"]; nm "c"] in let R := [nm "b"; nm "a"; nm "d"] in let W := [nm "c"; nm "d"] in
  let sizes := [(lit "c", 3%Z); (lit "d", 2%Z)] in
  reads ascii_unicode pattern L R /\ written ascii_unicode (lit "c d") W /\ plain L /\ plain R /\ plain W /\
  debugger ascii_unicode pattern (lit "c d") None sizes =
    Ok (mkDebugged (Some (lit "(b a) c -> b a c", [(lit "c", 3%Z)])) None [] [3; 2]%Z None (lit "bac,cd->bad")) /\
  (exists g, In g (left_groups 0 L) /\ length (filter (unknown (map fst sizes)) g) = 2) /\
  (EinMix ascii_unicode (fun _ => forward) (fun _ => backward) pattern (lit "c d") None sizes : result (einmix (tensor Z))) = Err EinopsError /\
  exists M : einmix (tensor Z), EinMix ascii_unicode (fun _ => forward) (fun _ => backward) pattern (lit "c d") None ((lit "a", 2%Z) :: sizes) = Ok M.
Proof.
  cbn zeta. split; [solve_reads (lit "(b a) c ") (lit " b a d")|]. split; [unfold written; solve_written|].
  split; [solve_plain|]. split; [solve_plain|]. split; [solve_plain|]. split; [vm_compute; reflexivity|].
  split; [eexists; (split; [left; reflexivity|vm_compute; reflexivity])|]. split; [vm_compute; reflexivity|]. eexists. vm_compute. reflexivity.
Qed.
