(** * C83: the words of error messages *)
From Verif Require Import Py SpecGrammar Parsing Recipe Ops Layers EinMix SpecTexts Texts Messages Complaints LayerMessages SpecWording WordFacts.

(** every message is one of the strings in the source with its arguments put in *)
Theorem C83_mistakes : forall printable callable foreign m,
  mistake_text printable callable foreign m = fmt (of_mistake m) (in_mistake callable foreign (set_text printable) (str_repr printable) m).
Proof. exact mistake_words. Qed.
Print Assumptions C83_mistakes.
Theorem C83_complaints : forall opname pattern shapes shape c,
  complaint_text opname pattern shapes shape c =
  fmt (of_complaint c) (in_complaint opname pattern shapes shape (in_mistake [] [] (set_text (fun _ => true)) (str_repr (fun _ => true))) c).
Proof. exact complaint_words. Qed.
Print Assumptions C83_complaints.
Theorem C83_faults : forall (T : Type) printable f,
  fault_text (T := T) printable f =
  fmt (of_fault f) (in_fault (set_text printable) (str_repr printable) (axis_repr printable)
    (fun p lengths => Rearrange_repr (T := T) printable (lit "Rearrange") (mkLayer p (RStr s_rearrange) lengths [])) f).
Proof. exact fault_words. Qed.
Print Assumptions C83_faults.
Theorem C83_layers : forall printable self callable foreign m,
  preparing printable callable foreign self m = fmt of_layer [self; mistake_text printable callable foreign m].
Proof. exact layer_words. Qed.
Print Assumptions C83_layers.
Theorem C83_reports : forall printable callable foreign op pattern shape sizes m,
  report printable callable foreign op pattern (shape_line shape) sizes m =
  fmt (of_report false) [op_text callable op; pattern; shape; sizes; mistake_text printable callable foreign m].
Proof. exact report_shape_words. Qed.
Print Assumptions C83_reports.
Theorem C83_reports_list : forall printable callable foreign op pattern sizes m,
  report printable callable foreign op pattern list_line sizes m =
  fmt (of_report true) [op_text callable op; pattern; sizes; mistake_text printable callable foreign m].
Proof. exact report_list_words. Qed.
Print Assumptions C83_reports_list.

(** which one it is can be read off *)
Theorem C83_kind : forall printable callable foreign m, m <> Foreign ->
  which mistake_templates (mistake_text printable callable foreign m) = Some (of_mistake m).
Proof. exact mistake_kind. Qed.
Print Assumptions C83_kind.
Theorem C83_complaint_kind : forall opname pattern shapes shape c, In (of_complaint c) complaint_templates -> (forall m, c <> InPattern m) ->
  which complaint_templates (complaint_text opname pattern shapes shape c) = Some (of_complaint c).
Proof. exact complaint_kind. Qed.
Print Assumptions C83_complaint_kind.

(** and what it is about *)
Theorem C83_literal : forall printable s t, code_points s -> read_literal (str_repr printable s ++ t) = Some (s, t).
Proof. exact repr_read. Qed.
Print Assumptions C83_literal.
(** double quotes when the string has single ones only *)
Theorem C83_quotes : forall printable s, exists q body, str_repr printable s = q :: body ++ [q] /\
  (q = 34%N <-> In 39%N s /\ ~ In 34%N s) /\ (q = 39%N <-> ~ In 39%N s \/ In 34%N s).
Proof. exact quotes. Qed.
Print Assumptions C83_quotes.
Theorem C83_set : forall printable l t, (forall a, In a l -> match a with AxName s => code_points s | AxAnon _ _ => True end) ->
  read_braces read_axis (set_text printable l ++ t) = Some (map shown l, t).
Proof. exact set_read. Qed.
Print Assumptions C83_set.
Theorem C83_sizes : forall printable sizes t, (forall k v, In (k, v) sizes -> code_points k) ->
  read_braces read_entry (dict_text printable str_of_int sizes ++ t) = Some (sizes, t).
Proof. exact dict_read. Qed.
Print Assumptions C83_sizes.
Theorem C83_texts_differ : forall printable callable foreign m m', plain m -> plain m' ->
  mistake_text printable callable foreign m = mistake_text printable callable foreign m' -> of_mistake m = of_mistake m' /\ details m = details m'.
Proof. exact texts_differ. Qed.
Print Assumptions C83_texts_differ.

(** ** cases *)
Example C83_mistakes_case :
  mistake_text (fun _ => true) [] [] (CannotInfer [AxName (lit "h"); AxAnon 0 3]) = lit "Could not infer sizes for {'h', 3-axis}" /\
  fmt (of_mistake (Mismatch 7 6)) [lit "7"; lit "6"] = lit "Shape mismatch, 7 != 6".
Proof. split; reflexivity. Qed.
Example C83_complaints_case :
  complaint_text (lit "pack") (lit "a *") [] (fun _ => []) NoStar = lit "No *-axis in pack(..., ""a *"")" /\
  which complaint_templates (lit "No *-axis in pack(..., ""a"")") = Some (lit "No *-axis in {}(..., ""{}"")").
Proof. split; reflexivity. Qed.
Example C83_faults_case :
  fault_text (T := unit) (fun _ => true) (Redundant [AxName (lit "k")]) = lit "Weight axes {'k'} are redundant".
Proof. reflexivity. Qed.
Example C83_layers_case :
  preparing (fun _ => true) [] [] (lit "Rearrange('a -> b')") (OnOneSide [AxName (lit "a"); AxName (lit "b")]) =
  lit " Error while preparing Rearrange('a -> b')" ++ [10%N] ++ lit " Identifiers only on one side of expression (should be on both): {'a', 'b'}".
Proof. reflexivity. Qed.
Example C83_reports_case :
  report (fun _ => true) [] [] (OpStr (lit "mean")) (lit "(a b) -> a") (shape_line (lit "(7,)")) (dict_text (fun _ => true) str_of_int [(lit "b", 2%Z)]) (CannotDivide 7 2) =
  lit " Error while processing mean-reduction pattern ""(a b) -> a""." ++ [10%N] ++ lit " Input tensor shape: (7,). Additional info: {'b': 2}." ++ [10%N] ++
  lit " Shape mismatch, can't divide axis of length 7 in chunks of 2".
Proof. reflexivity. Qed.
(** StrayDots is the beginning of ManyDots *)
Example C83_kind_case : StrayDots <> Foreign /\ starts (of_mistake StrayDots) (of_mistake ManyDots) = true /\
  which mistake_templates (of_mistake ManyDots) = Some (of_mistake ManyDots) /\ which mistake_templates (of_mistake StrayDots) = Some (of_mistake StrayDots).
Proof. repeat split; discriminate. Qed.
Example C83_complaint_kind_case : In (of_complaint (NoSplit 7)) complaint_templates /\ (forall m, NoSplit 7 <> InPattern m) /\
  which complaint_templates (complaint_text [] (lit "a *") (lit "[(2,), (3,)]") (fun _ => []) (NoSplit 7)) = Some (of_complaint (NoSplit 7)).
Proof. split; [cbn; tauto|]. split; [discriminate|reflexivity]. Qed.
(** both quotes, a line feed, two characters that are not printed *)
Example C83_literal_case :
  let s := [39; 34; 10; 127; 8203; 233]%N in code_points s /\
  str_repr (fun c => (c =? 233)%N) s = lit "'\'""\n\x7f\u200b" ++ [233%N] ++ lit "'" /\ read_literal (str_repr (fun c => (c =? 233)%N) s ++ lit "}") = Some (s, lit "}").
Proof. split; [|split; reflexivity]. intros c H. cbn in H. repeat (destruct H as [<-|H]; [reflexivity|]). contradiction. Qed.
Example C83_quotes_case :
  str_repr (fun _ => true) (lit "a'b") = lit """a'b""" /\ str_repr (fun _ => true) (lit "a'b""c") = lit "'a\'b""c'" /\ str_repr (fun _ => true) (lit "ab") = lit "'ab'".
Proof. repeat split. Qed.
Example C83_set_case :
  read_braces read_axis (lit "{'h', 3-axis, ""a'b""}.") = Some ([inl (lit "h"); inr 3%Z; inl (lit "a'b")], lit ".") /\ read_braces read_axis (lit "{}") = Some ([], []).
Proof. split; reflexivity. Qed.
Example C83_sizes_case :
  read_braces read_entry (lit "{'h': 12, 'w': -3}.") = Some ([(lit "h", 12%Z); (lit "w", (-3)%Z)], lit ".").
Proof. reflexivity. Qed.
Example C83_texts_differ_case : plain (UnusedSize (lit "h")) /\ plain (OnlyRight (OpStr (lit "max")) [AxName (lit "h")]) /\
  details (OnlyRight (OpStr (lit "max")) [AxName (lit "h")]) = ([lit "max"], [], [inl (lit "h")]).
Proof. split; [exact I|]. split; [|reflexivity]. split; [cbn; tauto|]. intros s [E|[]]. injection E as <-. intros c [<-|[]]. reflexivity. Qed.
