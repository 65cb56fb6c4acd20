(** Proofs about the options and texts of the two parser classes. *)
From Coq Require Import Ascii String ZArith Bool Lia List.
From Verif Require Import PyBase ProofPyBase PyFloat ModelFortran ModelRecords ModelTape ModelNum ModelRecipe ModelInterp ModelParser ModelPath.
From Verif Require Import ModelCpp ModelCppTab ModelCppRead ModelCppGen ModelCppFile ModelCppWrite ModelCppWriteFile ModelCppParser.
From Verif Require Import SpecCpp SpecCppRead SpecCppGen SpecCppParser ProofPathStr.
Import ListNotations.
Open Scope Z_scope.

Lemma oget_map n (f : str * oval -> oval) : forall sig, oget n (map (fun p => (fst p, f p)) sig) =
  match oget n sig with Some _ => oget n (map (fun p => (fst p, f p)) sig) | None => None end.
Proof.
  induction sig as [|[m v] sig IH]; [reflexivity|]. cbn [map oget fst]. destruct (str_eqb n m); [reflexivity|]. exact IH.
Qed.
Lemma oget_bind n (g : str -> option oval) : forall sig d, oget n sig = Some d ->
  oget n (map (fun p => (fst p, match g (fst p) with Some v => v | None => snd p end)) sig) = Some (match g n with Some v => v | None => d end).
Proof.
  induction sig as [|[m v] sig IH]; intros d H; cbn [map oget fst snd] in *; [discriminate|].
  destruct (str_eqb n m) eqn:E; [|auto]. apply str_eqb_eq in E. subst m. injection H as ->. reflexivity.
Qed.
Lemma bind_value sig kw args n d : bind_args sig [] kw = Some args -> oget n sig = Some d ->
  arg n args = match oget n kw with Some v => v | None => d end.
Proof.
  unfold bind_args. cbn [length]. destruct (length sig <? 0)%nat; [discriminate|].
  match goal with |- (if ?b then _ else _) = _ -> _ => destruct b end; [|discriminate]. intros H G. injection H as <-.
  unfold arg. assert (C : combine (map fst sig) (@nil oval) = []) by (destruct (map fst sig); reflexivity). rewrite C. cbn [app].
  now rewrite (oget_bind n (fun m => oget m kw) sig d G).
Qed.
Lemma oget_in n d v : oget n d = Some v -> In (n, v) d.
Proof.
  induction d as [|[m w] d IH]; cbn [oget]; [discriminate|]. destruct (str_eqb n m) eqn:E; [|right; auto].
  apply str_eqb_eq in E. subst m. intros H. injection H as ->. now left.
Qed.
Lemma bind_known sig pos kw args n v : bind_args sig pos kw = Some args -> oget n kw = Some v -> oget n sig <> None.
Proof.
  unfold bind_args. destruct (length sig <? length pos)%nat; [discriminate|].
  match goal with |- (if ?b then _ else _) = _ -> _ => destruct b eqn:F end; [|discriminate]. intros _ G. apply oget_in in G.
  rewrite forallb_forall in F. specialize (F _ G). cbn [fst] in F. destruct (oget n sig); [discriminate|discriminate F].
Qed.
Lemma load_bool_ok d n v b : oget n d = Some v -> (forall s, v <> OStr s) -> load_bool d n b = Val (truth v).
Proof. intros G N. unfold load_bool. rewrite G. destruct v; try reflexivity. now elim (N s). Qed.
Lemma load_text_ok d n s b : oget n d = Some (OStr s) -> load_text d n b = Val s.
Proof. intros G. unfold load_text. now rewrite G. Qed.

Lemma flag_value sig kw args n b : bind_args sig [] kw = Some args -> good_values kw -> oget n sig = Some (OBool b) -> n <> $"array_type" -> n <> $"endf_format" ->
  (forall s, arg n args <> OStr s) /\ truth (arg n args) = wish kw n b.
Proof.
  intros B [G _] S N1 N2. rewrite (bind_value sig kw args n _ B S). unfold wish. destruct (oget n kw) as [v|] eqn:E; [|split; [discriminate|reflexivity]].
  split; [intros s; exact (G n v s E N1 N2)|reflexivity].
Qed.
Lemma array_value sig kw args : bind_args sig [] kw = Some args -> good_values kw -> oget $"array_type" sig = Some (OStr $"dict") -> exists s, arg $"array_type" args = OStr s.
Proof.
  intros B [_ G] S. rewrite (bind_value sig kw args _ _ B S). destruct (oget $"array_type" kw) as [v|] eqn:E; [|eauto]. exact (G v eq_refl).
Qed.
Ltac flag B G n := let H := fresh "F" in
  pose proof (flag_value _ _ _ n _ B G eq_refl ltac:(discriminate) ltac:(discriminate)) as H.

Lemma load_parsing_ok kw args : bind_args cpp_signature [] kw = Some args -> good_values kw ->
  exists s, arg $"array_type" args = OStr s /\
  load_parsing (cpp_read_opts args) = Val
    {| pa_number := wish kw $"ignore_number_mismatch" false; pa_zero := wish kw $"ignore_zero_mismatch" true;
       pa_varspec := wish kw $"ignore_varspec_mismatch" true; pa_accept := wish kw $"accept_spaces" true;
       pa_blank := wish kw $"ignore_blank_lines" false; pa_send := wish kw $"ignore_send_records" false;
       pa_tpid := wish kw $"ignore_missing_tpid" false; pa_preserve := wish kw $"preserve_value_strings" false;
       pa_validate := wish kw $"validate_control_records" false; pa_array := s |}.
Proof.
  intros B G. destruct (array_value _ _ _ B G eq_refl) as [s E]. exists s. split; [exact E|].
  flag B G $"ignore_number_mismatch". flag B G $"ignore_zero_mismatch". flag B G $"ignore_varspec_mismatch". flag B G $"accept_spaces".
  flag B G $"ignore_blank_lines". flag B G $"ignore_send_records". flag B G $"ignore_missing_tpid". flag B G $"preserve_value_strings". flag B G $"validate_control_records".
  repeat match goal with H : _ /\ _ = wish _ _ _ |- _ => destruct H end.
  unfold load_parsing. match goal with |- (if ?b then _ else _) = _ => change b with false end. cbv iota.
  do 9 (erewrite load_bool_ok; [|reflexivity|eassumption]; cbn [cbind]).
  erewrite load_text_ok; [|unfold cpp_read_opts, pick; rewrite <- E; reflexivity]. cbn [cbind]. apply f_equal. f_equal; solve [assumption|reflexivity].
Qed.
Lemma load_writing_ok kw args : bind_args cpp_signature [] kw = Some args -> good_values kw ->
  exists s, arg $"array_type" args = OStr s /\
  load_writing (cpp_write_opts args) = Val
    {| wa_abuse := wish kw $"abuse_signpos" false; wa_keepE := wish kw $"keep_E" false; wa_noexp := wish kw $"prefer_noexp" false;
       wa_skip := wish kw $"skip_intzero" false; wa_preserve := wish kw $"preserve_value_strings" false;
       wa_linenum := wish kw $"include_linenum" true; wa_array := s |}.
Proof.
  intros B G. destruct (array_value _ _ _ B G eq_refl) as [s E]. exists s. split; [exact E|].
  flag B G $"abuse_signpos". flag B G $"keep_E". flag B G $"prefer_noexp". flag B G $"skip_intzero". flag B G $"preserve_value_strings". flag B G $"include_linenum".
  repeat match goal with H : _ /\ _ = wish _ _ _ |- _ => destruct H end.
  unfold load_writing. match goal with |- (if ?b then _ else _) = _ => change b with false end. cbv iota.
  do 6 (erewrite load_bool_ok; [|reflexivity|eassumption]; cbn [cbind]).
  erewrite load_text_ok; [|unfold cpp_write_opts, pick; rewrite <- E; reflexivity]. cbn [cbind]. apply f_equal. f_equal; solve [assumption|reflexivity].
Qed.
Lemma py_options_ok lib kw args : bind_args py_signature [] kw = Some args -> oget $"width" kw = None ->
  py_read_opts args = {| r_spaces := wish kw $"accept_spaces" true; r_blank := wish kw $"ignore_blank_lines" false;
    r_send := wish kw $"ignore_send_records" false; r_tpid := wish kw $"ignore_missing_tpid" false; r_width := 11;
    r_preserve := wish kw $"preserve_value_strings" false |} /\
  py_write_opts lib args = {| w_abuse := wish kw $"abuse_signpos" false; w_skip := wish kw $"skip_intzero" false; w_noexp := wish kw $"prefer_noexp" false;
    w_keepE := wish kw $"keep_E" false; w_linenum := wish kw $"include_linenum" true; w_width := 11; w_strict := wish kw $"strict_datatypes" false; w_libm := lib |} /\
  py_parse_opts args = {| o_zero := wish kw $"ignore_zero_mismatch" true; o_number := wish kw $"ignore_number_mismatch" false;
    o_varspec := wish kw $"ignore_varspec_mismatch" true; o_fuzzy := wish kw $"fuzzy_matching" true; o_all := false |}.
Proof.
  intros B W.
  assert (V : forall n b, oget n py_signature = Some (OBool b) -> truth (arg n args) = wish kw n b).
  { intros n b S. rewrite (bind_value _ _ _ n _ B S). unfold wish. destruct (oget n kw); reflexivity. }
  assert (Wi : py_width args = 11%nat).
  { unfold py_width. rewrite (bind_value _ _ _ $"width" (OInt 11) B eq_refl), W. reflexivity. }
  unfold py_read_opts, py_write_opts, py_parse_opts. rewrite Wi.
  repeat match goal with |- context [truth (arg ?n args)] => rewrite (V n _ eq_refl) end. auto.
Qed.
Lemma wish_alike kw kw' n b : alike kw kw' -> oget n py_signature <> None -> oget n cpp_signature <> None -> wish kw n b = wish kw' n b.
Proof. intros [A _] P C. unfold wish. now rewrite (A n P C). Qed.

(** ** Texts *)

Lemma getlines_one l cur : one_line l -> getlines cur l = match cur ++ l with [] => [] | _ => [cur ++ l] end.
Proof.
  revert cur. induction l as [|c l IH]; intros cur N; cbn [getlines]; [rewrite app_nil_r; reflexivity|].
  destruct (chr_eqb c newline) eqn:E; [apply Ascii.eqb_eq in E; elim N; left; exact E|].
  rewrite IH by (intros X; apply N; now right). now rewrite <- app_assoc.
Qed.
Lemma getlines_break l r cur : one_line l -> getlines cur (l ++ newline :: r) = (cur ++ l) :: getlines [] r.
Proof.
  revert cur. induction l as [|c l IH]; intros cur N; cbn [getlines app]; [rewrite app_nil_r; reflexivity|].
  destruct (chr_eqb c newline) eqn:E; [apply Ascii.eqb_eq in E; elim N; left; exact E|].
  rewrite IH by (intros X; apply N; now right). now rewrite <- app_assoc.
Qed.
Lemma getlines_text : forall ls, Forall one_line ls -> getlines [] (text_of ls) = ls.
Proof.
  induction ls as [|l ls IH]; intros F; [reflexivity|]. inversion F; subst. unfold text_of. cbn [map concat]. rewrite <- app_assoc. cbn [app].
  change (ascii_of_nat 10) with newline. rewrite getlines_break by assumption. cbn [app]. f_equal. now apply IH.
Qed.
Lemma getlines_join : forall ls, Forall one_line ls -> last ls [] <> [] -> getlines [] (join [newline] ls) = ls.
Proof.
  induction ls as [|l ls IH]; intros F L; [now elim L|]. inversion F; subst. destruct ls as [|l' ls].
  - cbn [join last] in *. rewrite getlines_one by assumption. cbn [app]. destruct l; [now elim L|reflexivity].
  - change (join [newline] (l :: l' :: ls)) with (l ++ newline :: join [newline] (l' :: ls)). rewrite getlines_break by assumption. cbn [app]. f_equal. now apply IH.
Qed.
Lemma one_line_lacks l : one_line l -> lacks newline l.
Proof. intros N. unfold lacks. rewrite Forall_forall. intros x I E. subst x. apply N. exact I. Qed.
Lemma split_text : forall ls, Forall one_line ls -> split_chr newline (text_of ls) = ls ++ [[]].
Proof.
  induction ls as [|l ls IH]; intros F; [reflexivity|]. inversion F; subst. unfold text_of. cbn [map concat]. rewrite <- app_assoc. cbn [app].
  change (ascii_of_nat 10) with newline. rewrite split_app by now apply one_line_lacks. f_equal. now apply IH.
Qed.
Lemma pop_split ls : Forall one_line ls -> pop_empty (split_chr newline (text_of ls)) = ls.
Proof. intros F. rewrite split_text by exact F. unfold pop_empty. rewrite last_last. apply removelast_last. Qed.
Lemma split_ne c s : split_chr c s <> [].
Proof. destruct s as [|x s]; cbn [split_chr]; [intros H; discriminate H|]. destruct (chr_eqb x c); [intros H; discriminate H|]. destruct (split_chr c s); intros H; discriminate H. Qed.
Lemma pop_cons (cur : str) (l : list str) : l <> [] -> pop_empty (cur :: l) = cur :: pop_empty l.
Proof.
  intros N. unfold pop_empty. destruct l as [|w r]; [elim N; reflexivity|]. change (last (cur :: w :: r) [zero_chr]) with (last (w :: r) [zero_chr]).
  change (removelast (cur :: w :: r)) with (cur :: removelast (w :: r)). destruct (last (w :: r) [zero_chr]); reflexivity.
Qed.
Lemma getlines_pop : forall s cur, getlines cur s = pop_empty match split_chr newline s with w :: r => (cur ++ w) :: r | [] => [cur] end.
Proof.
  induction s as [|c s IH]; intros cur; cbn [getlines split_chr].
  - rewrite app_nil_r. destruct cur; reflexivity.
  - destruct (chr_eqb c newline) eqn:E.
    + rewrite app_nil_r, IH. cbn [app]. assert (NE : split_chr newline s <> []) by apply split_ne.
      rewrite pop_cons by exact NE. f_equal. destruct (split_chr newline s) as [|w r]; [elim NE; reflexivity|]. reflexivity.
    + rewrite IH. destruct (split_chr newline s) as [|w r]; [reflexivity|]. now rewrite <- app_assoc.
Qed.
Lemma split_one_line : forall s, Forall one_line (split_chr newline s).
Proof.
  induction s as [|c s IH]; cbn [split_chr]; [constructor; [intros []|constructor]|].
  destruct (chr_eqb c newline) eqn:E; [constructor; [intros []|exact IH]|].
  assert (N : c <> newline) by (intros ->; unfold chr_eqb in E; now rewrite Ascii.eqb_refl in E).
  destruct (split_chr newline s) as [|w r]; [constructor; [intros [X|[]]; now apply N|constructor]|].
  inversion IH; subst. constructor; [intros [X|X]; [now apply N|contradiction]|assumption].
Qed.
Lemma removelast_Forall {A} (P : A -> Prop) l : Forall P l -> Forall P (removelast l).
Proof. induction l as [|x l IH]; intros F; [exact F|]. inversion F; subst. cbn [removelast]. destruct l; [constructor|]. constructor; auto. Qed.
Lemma pop_one_line s : Forall one_line (pop_empty (split_chr newline s)).
Proof. unfold pop_empty. destruct (last _ _); [apply removelast_Forall|]; apply split_one_line. Qed.
Lemma again s : last (pop_empty (split_chr newline s)) [] <> [] -> getlines [] (join [newline] (pop_empty (split_chr newline s))) = getlines [] s.
Proof.
  intros L. rewrite getlines_join by (exact L || apply pop_one_line). rewrite getlines_pop. cbn [app].
  pose proof (split_ne newline s) as NE. destruct (split_chr newline s); [elim NE; reflexivity|reflexivity].
Qed.
