(** The C++ templates against the Python code: writing. *)
From Coq Require Import Ascii String ZArith Bool Lia List Sorting.Sorted.
From Coq Require Import Floats.SpecFloat.
From Verif Require Import PyBase ProofPyBase PyFloat ModelFortran ModelRecords ModelTape
  SpecFields ProofFields SpecTape ProofTapeWrite ModelCpp SpecCpp ProofCpp.
Import ListNotations.
Open Scope Z_scope.

Lemma c_replace_app p x q t : c_replace (p ++ x ++ q) (length p) (length x) t = p ++ t ++ q.
Proof.
  unfold c_replace. rewrite firstn_app, firstn_all, Nat.sub_diag. cbn [firstn]. rewrite app_nil_r.
  rewrite skipn_app, skipn_all2 by lia. cbn [app]. replace (length p + length x - length p)%nat with (length x) by lia.
  rewrite skipn_app, skipn_all, Nat.sub_diag. reflexivity.
Qed.
Lemma c_replace_at p x q t a w : length p = a -> length x = w -> c_replace (p ++ x ++ q) a w t = p ++ t ++ q.
Proof. intros <- <-. apply c_replace_app. Qed.

Lemma spaces_app a b : spaces (a + b) = spaces a ++ spaces b.
Proof. unfold spaces. apply repeat_app. Qed.

Definition lnum (o : cwopts) (n : Z) : str := if cw_linenum o then rjust 5 (str_of_Z n) else [].

Lemma len_rjust w n : fits w n -> (1 <= w)%nat -> length (rjust w (str_of_Z n)) = w.
Proof. intros F W. apply (length_int_field w n F). Qed.

(** the three control numbers *)
Lemma write_control mat mf mt p r : length p = 66%nat -> fits 4 mat -> fits 2 mf -> fits 3 mt ->
  cpp_write_mt_number (cpp_write_mf_number (cpp_write_mat_number (p ++ spaces 9 ++ r) mat) mf) mt =
  p ++ write_ctrl {| MAT := mat; MF := mf; MT := mt |} ++ r.
Proof.
  intros L F1 F2 F3. unfold cpp_write_mt_number, cpp_write_mf_number, cpp_write_mat_number, cpp_write_custom_int_field, write_ctrl.
  cbn [MAT MF MT]. change (spaces 9) with (spaces 4 ++ spaces 2 ++ spaces 3).
  pose proof (len_rjust 4 mat F1 ltac:(lia)) as L1. pose proof (len_rjust 2 mf F2 ltac:(lia)) as L2.
  rewrite <- !app_assoc. rewrite (c_replace_at p (spaces 4)) by auto.
  rewrite (app_assoc p (rjust 4 _)). rewrite (c_replace_at (p ++ rjust 4 (str_of_Z mat)) (spaces 2)); auto.
  2:{ rewrite app_length. lia. }
  rewrite (app_assoc _ (rjust 2 _)). rewrite (c_replace_at _ (spaces 3)); auto.
  2:{ rewrite !app_length. lia. }
  now rewrite <- !app_assoc.
Qed.

Lemma blank_line_parts o : blank_line o = spaces 66 ++ spaces 9 ++ spaces (if cw_linenum o then 5 else 0) ++ [newline].
Proof. unfold blank_line. destruct (cw_linenum o); reflexivity. Qed.

Lemma write_number o p n : length p = 75%nat ->
  (if cw_linenum o then cpp_write_line_number (p ++ spaces (if cw_linenum o then 5 else 0) ++ [newline]) n
   else p ++ spaces (if cw_linenum o then 5 else 0) ++ [newline]) = p ++ lnum o n ++ [newline].
Proof.
  intros L. unfold lnum. destruct (cw_linenum o); [|reflexivity].
  unfold cpp_write_line_number, cpp_write_custom_int_field. now apply c_replace_at.
Qed.

Lemma len_ctrl c : ctrl_fits c -> length (write_ctrl c) = 9%nat.
Proof. apply length_write_ctrl. Qed.

(** an empty line with its control columns and number *)
Lemma prepared_line o c n : ctrl_fits c ->
  cpp_prepare_line (MAT c) (MF c) (MT c) n o =
  (spaces 66 ++ write_ctrl c ++ lnum o (Z.rem n 99999 + 1) ++ [newline], n + 1).
Proof.
  intros F. pose proof (len_ctrl c F) as L. apply ctrl_fits_iff in F as (F1 & F2 & F3).
  unfold cpp_prepare_line. rewrite blank_line_parts, write_control by auto.
  replace {| MAT := MAT c; MF := MF c; MT := MT c |} with c in * by now destruct c.
  f_equal. rewrite !app_assoc. rewrite <- (app_assoc (spaces 66 ++ write_ctrl c)).
  rewrite <- (app_assoc (spaces 66 ++ write_ctrl c) (lnum _ _)).
  apply write_number. rewrite app_length, L. reflexivity.
Qed.

(** six fields put into a prepared line *)
Definition put_fields (line : str) (fs : list str) : str :=
  snd (fold_left (fun (st : nat * str) f => (S (fst st), c_replace (snd st) (fst st * 11) 11 f)) fs (0%nat, line)).

Lemma put_fields_gen fs : forall i pre r, length pre = (i * 11)%nat -> Forall (fun f => length f = 11%nat) fs ->
  snd (fold_left (fun (st : nat * str) f => (S (fst st), c_replace (snd st) (fst st * 11) 11 f)) fs
         (i, pre ++ spaces (11 * length fs) ++ r)) = pre ++ concat fs ++ r.
Proof.
  induction fs as [|f fs IH]; intros i pre r L F; [reflexivity|].
  inversion F as [|? ? Lf F']; subst. cbn [fold_left fst snd length concat].
  replace (11 * S (length fs))%nat with (11 + 11 * length fs)%nat by lia. rewrite spaces_app, <- app_assoc.
  rewrite (c_replace_at pre (spaces 11)); auto.
  rewrite app_assoc. rewrite IH; auto.
  - now rewrite <- !app_assoc.
  - rewrite app_length. lia.
Qed.
Lemma put_six fs r : length fs = 6%nat -> Forall (fun f => length f = 11%nat) fs ->
  put_fields (spaces 66 ++ r) fs = concat fs ++ r.
Proof.
  intros L F. unfold put_fields. pose proof (put_fields_gen fs 0 [] r eq_refl F) as H. rewrite L in H. exact H.
Qed.

Lemma data_line_same o c n fs : ctrl_fits c -> length fs = 6%nat -> Forall (fun f => length f = 11%nat) fs ->
  put_fields (fst (cpp_prepare_line (MAT c) (MF c) (MT c) n o)) fs =
  concat fs ++ write_ctrl c ++ (if cw_linenum o then rjust 5 (str_of_Z (Z.rem n 99999 + 1)) else []) ++ [ascii_of_nat 10].
Proof. intros F L A. rewrite prepared_line by auto. cbn [fst]. rewrite put_six by auto. reflexivity. Qed.

(** ** End records *)

Definition czero (o : cwopts) : str := if cw_abuse o then $"0.0000000+0" else $" 0.000000+0".
Lemma cpp_zero o : cw_keepE o = false -> cw_noexp o = false -> float2endfstr o (S754_zero false) = Val (czero o).
Proof.
  destruct o as [a k n sk ln]. cbn. intros -> ->. unfold czero. cbn [cw_abuse]. destruct a; vm_compute; reflexivity.
Qed.
Lemma py_zero o wo : same_options o wo -> cw_keepE o = false -> cw_noexp o = false ->
  float2fortstr wo (NInt 0) = Ok (czero o).
Proof.
  intros (A & K & N & _ & _ & W). intros HK HN. rewrite HK in K. rewrite HN in N.
  unfold czero. destruct wo as [a sk n k ln w st lm]. cbn [w_abuse w_keepE w_noexp w_width] in A, K, N, W. subst.
  destruct (cw_abuse o); vm_compute; reflexivity.
Qed.

Lemma czero_len o : length (czero o) = 11%nat.
Proof. unfold czero. now destruct (cw_abuse o). Qed.
Definition zfields (o : cwopts) : list str := [czero o; czero o; rjust 11 $"0"; rjust 11 $"0"; rjust 11 $"0"; rjust 11 $"0"].

Lemma send_line o mat mf : cw_keepE o = false -> cw_noexp o = false -> fits 4 mat -> fits 2 mf ->
  cpp_prepare_send mat mf o =
  Val (concat (zfields o) ++ write_ctrl {| MAT := mat; MF := mf; MT := 0 |} ++
       lnum o (if mf =? 0 then 0 else 99999) ++ [newline]).
Proof.
  intros K N F1 F2. unfold cpp_prepare_send. rewrite blank_line_parts.
  assert (F3 : fits 3 0) by (apply in_field_fits; [lia|unfold in_field; cbn; lia]).
  rewrite write_control by auto. unfold cpp_write_float_field, cpp_write_int_field. rewrite !cpp_zero by auto. cbn [cbind].
  rewrite czero_len. cbn [Nat.eqb cbind].
  set (W := write_ctrl _). set (R := spaces (if cw_linenum o then 5 else 0) ++ [newline]).
  match goal with |- context [Val (if _ then cpp_write_line_number ?l _ else _)] => set (line := l) end.
  assert (E : line = concat (zfields o) ++ W ++ R).
  { pose proof (put_six (zfields o) (W ++ R) eq_refl) as P.
    assert (A : Forall (fun f => length f = 11%nat) (zfields o)) by (repeat constructor; auto using czero_len).
    specialize (P A). exact P. }
  rewrite E. f_equal. unfold R.
  assert (LW : length W = 9%nat) by (apply length_write_ctrl; apply ctrl_fits_iff; auto).
  assert (LZ : length (concat (zfields o)) = 66%nat).
  { unfold zfields. cbn [concat]. rewrite !app_length, !czero_len. reflexivity. }
  rewrite !app_assoc. rewrite <- (app_assoc (concat (zfields o) ++ W)).
  rewrite <- (app_assoc (concat (zfields o) ++ W) (lnum _ _)).
  apply write_number. rewrite app_length. lia.
Qed.

Lemma py_end o wo c ns : same_options o wo -> cw_keepE o = false -> cw_noexp o = false ->
  write_end wo false c ns = Ok [concat (zfields o) ++ write_ctrl c ++ (if cw_linenum o then ns else [])].
Proof.
  intros S K N. unfold write_end, zerostr_fields. rewrite (py_zero o) by auto.
  destruct S as (_ & _ & _ & _ & L & W). rewrite W, L. cbn [bind]. unfold zfields. cbn [concat].
  now rewrite app_nil_r.
Qed.

Lemma fits_small w n : (1 <= w)%nat -> - 10 ^ (Z.of_nat w - 1) < n < 10 ^ Z.of_nat w -> fits w n.
Proof. intros W H. apply in_field_fits; auto. Qed.

Section EndRecords.
  Variable o : cwopts. Variable wo : wopts.
  Hypothesis S : same_options o wo.
  Hypothesis K : cw_keepE o = false.
  Hypothesis N : cw_noexp o = false.
  Lemma text_one l : text_of [l] = l ++ [newline].
  Proof. unfold text_of. cbn. now rewrite app_nil_r. Qed.
  Lemma send_same c : ctrl_fits c -> MF c <> 0 -> exists ls, write_send wo false c = Ok ls /\
    cpp_prepare_send (MAT c) (MF c) o = Val (text_of ls).
  Proof.
    intros F Z. unfold write_send. rewrite (py_end o) by auto. eexists. split; [reflexivity|].
    apply ctrl_fits_iff in F as (F1 & F2 & _). rewrite send_line, text_one by auto.
    replace (MF c =? 0) with false by (symmetry; now apply Z.eqb_neq). rewrite <- !app_assoc. unfold lnum.
    destruct (cw_linenum o); reflexivity.
  Qed.
  Lemma fend_same c : fits 4 (MAT c) -> exists ls, write_fend wo false c = Ok ls /\
    cpp_prepare_send (MAT c) 0 o = Val (text_of ls).
  Proof.
    intros F. unfold write_fend. rewrite (py_end o) by auto. eexists. split; [reflexivity|].
    rewrite send_line, text_one by (auto; apply fits_small; cbn; lia).
    cbn [Z.eqb]. rewrite <- !app_assoc. unfold lnum. destruct (cw_linenum o); reflexivity.
  Qed.
  Lemma mend_same : exists ls, write_mend wo false = Ok ls /\ cpp_prepare_send 0 0 o = Val (text_of ls).
  Proof. apply (fend_same {| MAT := 0; MF := 0; MT := 0 |}). apply fits_small; cbn; lia. Qed.
  Lemma tend_same : exists ls, write_tend wo false = Ok ls /\ cpp_prepare_send (-1) 0 o = Val (text_of ls).
  Proof. apply (fend_same {| MAT := -1; MF := 0; MT := 0 |}). apply fits_small; cbn; lia. Qed.
End EndRecords.

(** ** Sections kept as lines *)

Lemma text_app a b : text_of (a ++ b) = text_of a ++ text_of b.
Proof. unfold text_of. now rewrite map_app, concat_app. Qed.
Lemma text_cons l r : text_of (l :: r) = (l ++ [newline]) ++ text_of r.
Proof. reflexivity. Qed.

Lemma last_app_cons {A} (p : list A) c q d : last (p ++ c :: q) d = last (c :: q) d.
Proof. induction p as [|x p IH]; [reflexivity|]. cbn [app]. rewrite <- IH. destruct p; reflexivity. Qed.
Lemma last_in {A} (c : A) q d : In (last (c :: q) d) (c :: q).
Proof. revert c; induction q as [|x q IH]; intros c; [now left|]. right. apply IH. Qed.
Lemma not_newline p w n : ends_with_newline (p ++ rjust w (str_of_Z n)) = false.
Proof.
  unfold ends_with_newline, rjust. rewrite app_assoc.
  destruct (str_of_Z n) as [|c q] eqn:E; [now apply str_of_Z_nonnil in E|].
  rewrite last_app_cons. pose proof (str_of_Z_no_ws n) as N. rewrite E in N.
  pose proof (last_in c q zero_chr) as I. unfold no_ws in N. rewrite Forall_forall in N. specialize (N _ I).
  destruct (chr_eqb (last (c :: q) zero_chr) newline) eqn:X; auto.
  apply chr_eqb_eq in X. rewrite X in N. discriminate.
Qed.

Lemma control_in_cut c l : ctrl_fits c -> control_in c l ->
  exists a, length a = 66%nat /\ firstn 75 l = a ++ write_ctrl c /\ (75 <= length l)%nat.
Proof.
  intros F (a & b & -> & L). pose proof (len_ctrl c F) as LC. exists a. split; auto. split.
  - rewrite app_assoc, firstn_app. rewrite firstn_all2 by (rewrite app_length; lia).
    rewrite app_length. replace (75 - (length a + length (write_ctrl c)))%nat with 0%nat by lia. cbn [firstn].
    now rewrite app_nil_r.
  - rewrite !app_length. lia.
Qed.

Lemma verbatim_line_same o c n l : ctrl_fits c -> control_in c l ->
  verbatim_line o n l = Val (firstn 75 l ++ lnum o n ++ [newline]).
Proof.
  intros F C. destruct (control_in_cut c l F C) as (a & La & Cut & Len). unfold verbatim_line, lnum.
  destruct (cw_linenum o).
  - cbn [cbind]. unfold cpp_write_line_number, cpp_write_custom_int_field, c_replace, resize.
    assert (E : firstn 75 (firstn 80 l ++ repeat zero_chr (80 - length l)) = firstn 75 l).
    { rewrite firstn_app, firstn_firstn, firstn_length. replace (75 - Nat.min 80 (length l))%nat with 0%nat by lia.
      cbn [firstn Nat.min]. now rewrite app_nil_r. }
    rewrite E. rewrite skipn_all2.
    2:{ rewrite app_length, firstn_length, repeat_length. lia. }
    rewrite app_nil_r, not_newline. now rewrite <- app_assoc.
  - replace (length l <? 75)%nat with false by (symmetry; now apply Nat.ltb_ge). cbn [cbind app].
    rewrite Cut. unfold write_ctrl. rewrite !app_assoc, not_newline. now rewrite <- !app_assoc.
Qed.

Definition numbered_lines (o : cwopts) (ofs i : Z) (ls : list str) : list str :=
  if cw_linenum o then number_lines ofs i (map (firstn 75) ls) else map (firstn 75) ls.
Lemma verbatim_lines_same o c ofs ls : ctrl_fits c -> Forall (control_in c) ls -> forall i, 0 <= i ->
  i + Z.of_nat (length ls) <= 99999 ->
  verbatim_lines o (ofs + i) ls = Val (text_of (numbered_lines o ofs i ls)).
Proof.
  intros F C. induction C as [|l ls Hl C IH]; intros i Hi Hb.
  - unfold numbered_lines. now destruct (cw_linenum o).
  - cbn [verbatim_lines length] in *. rewrite (verbatim_line_same o c) by auto. cbn [cbind].
    rewrite <- Z.add_assoc, IH by lia. cbn [cbind]. f_equal. unfold numbered_lines, lnum.
    destruct (cw_linenum o); cbn [map number_lines]; rewrite text_cons.
    + rewrite Z.mod_small by lia. rewrite (Z.add_comm i ofs), <- !app_assoc. reflexivity.
    + now rewrite <- !app_assoc.
Qed.

Lemma number_field_Z n : number_field (str_of_Z n).
Proof.
  intros c I. unfold str_of_Z in I.
  assert (K : forall m, In c (str_of_nonneg m) -> number_char c).
  { intros m J. left. pose proof (str_of_nonneg_digits m) as D. unfold all_digits in D. rewrite Forall_forall in D. auto. }
  destruct (n <? 0); eauto. destruct I as [<-|I]; eauto. right. left. cbn. auto.
Qed.
Lemma number_field_app a b : number_field a -> number_field b -> number_field (a ++ b).
Proof. intros A B c I. apply in_app_or in I as [I|I]; auto. Qed.
Lemma number_field_rjust w n : number_field (rjust w (str_of_Z n)).
Proof.
  unfold rjust. apply number_field_app; [|apply number_field_Z].
  intros c I. apply repeat_spec in I. right. now right.
Qed.
Lemma number_field_ctrl c : number_field (write_ctrl c).
Proof. unfold write_ctrl. apply number_field_app; [apply number_field_rjust|]. apply number_field_app; apply number_field_rjust. Qed.

Lemma control_in_ctrl c l ro : ctrl_fits c -> r_width ro = 11%nat -> control_in c l -> read_ctrl ro l = Ok c.
Proof. intros F W (a & b & -> & L). apply read_ctrl_write; auto. rewrite W. exact L. Qed.
Lemma control_in_numbers c l : ctrl_fits c -> control_in c l ->
  cpp_read_mat_number l = Val (MAT c) /\ cpp_read_mf_number l = Val (MF c) /\ cpp_read_mt_number l = Val (MT c).
Proof.
  intros F C. apply (control_read_same (ctrl_ropts 11)); auto.
  - now destruct (control_in_cut c l F C) as (_ & _ & _ & H).
  - destruct C as (a & b & -> & L). change 75%nat with (66 + 9)%nat.
    rewrite (slice_at a (write_ctrl c) b 66 (66 + 9)); [apply number_field_ctrl|auto|rewrite len_ctrl by auto; lia].
  - now apply control_in_ctrl.
Qed.
Lemma mat_of_lines c l : ctrl_fits c -> control_in c l -> stoi (slice 66 70 l) = Val (MAT c).
Proof.
  intros F (a & b & -> & L). apply ctrl_fits_iff in F as (F1 & _). unfold write_ctrl. rewrite <- !app_assoc.
  rewrite (slice_at a (rjust 4 (str_of_Z (MAT c))) _ 66 70); [|auto|rewrite len_rjust by (auto; lia); lia].
  rewrite (stoi_int _ (MAT c)); [|apply number_field_rjust|apply int_of_str_rjust_Z].
  apply c_int_in. now apply (fits_int32 4); [lia|].
Qed.

Section Verbatim.
  Variable o : cwopts. Variable wo : wopts. Variable ro : ropts.
  Hypothesis S : same_options o wo.
  Hypothesis K : cw_keepE o = false.
  Hypothesis N : cw_noexp o = false.
  Hypothesis W : r_width ro = 11%nat.

  Lemma numbered_cases ofs i ls l : In l (numbered_lines o ofs i ls) ->
    exists l0 x, In l0 ls /\ l = firstn 75 l0 ++ x.
  Proof.
    unfold numbered_lines. destruct (cw_linenum o).
    - revert i. induction ls as [|a ls IH]; intros i I; [destruct I|]. cbn [map number_lines] in I.
      destruct I as [<-|I]; [exists a; eexists; split; [now left|reflexivity]|].
      destruct (IH _ I) as (l0 & x & J & E). exists l0, x. split; auto. now right.
    - intros I. apply in_map_iff in I as (l0 & E & I). exists l0, []. split; auto. now rewrite app_nil_r.
  Qed.

  Lemma verbatim_same {D} run_recipe mf mt c ls : lines_of_section mf c ls ->
    exists num, @write_section D run_recipe ro wo false mf mt (Raw ls) = Ok (num, c) /\
      write_section_verbatim o ls = Val (text_of num).
  Proof.
    intros (Ne & Len & EM & F & C). destruct ls as [|l0 r]; [contradiction|].
    assert (C0 : control_in c l0) by now inversion C.
    cbn [write_section]. unfold add_linenumbers_to_section.
    destruct S as (_ & _ & _ & _ & SL & SW).
    assert (GL : get_line (l0 :: r) 0 = Ok l0) by reflexivity. rewrite GL. cbn [bind].
    rewrite (control_in_ctrl c l0) by (auto; now rewrite SW). cbn [bind]. rewrite SW, SL.
    change (11 * 6 + 9)%nat with 75%nat. set (ls := l0 :: r) in *.
    assert (E : (if negb (cw_linenum o) then Ok (map (firstn 75) ls)
                 else Ok (number_lines (if MF c =? 0 then 0 else 1) 0 (map (firstn 75) ls))) =
                Ok (numbered_lines o (if MF c =? 0 then 0 else 1) 0 ls)).
    { unfold numbered_lines. now destruct (cw_linenum o). }
    rewrite E. cbn [bind]. set (num := numbered_lines o _ 0 ls) in *.
    assert (NN : num <> []).
    { unfold num, numbered_lines, ls. destruct (cw_linenum o); discriminate. }
    assert (LC : control_in c (last num [])).
    { assert (I : In (last num []) num) by (destruct num as [|x y]; [contradiction|apply last_in]).
      apply numbered_cases in I as (l1 & x & I & ->). rewrite Forall_forall in C. specialize (C l1 I).
      destruct (control_in_cut c l1 F C) as (a & La & -> & _). exists a, x. split; auto. now rewrite <- app_assoc. }
    rewrite (control_in_ctrl c) by auto. cbn [bind].
    unfold write_section_verbatim. unfold ls at 1.
    destruct (control_in_numbers c l0 F C0) as (-> & -> & ->). cbn [cbind].
    pose proof (verbatim_lines_same o c (if MF c =? 0 then 0 else 1) ls F C 0 ltac:(lia) Len) as V.
    rewrite Z.add_0_r in V. rewrite V. cbn [cbind]. rewrite <- EM.
    destruct (Z.eqb_spec (MF c) 0) as [Z|Z].
    - exists num. split; reflexivity.
    - destruct (send_same o wo S K N c F Z) as (snd & -> & ->). cbn [bind cbind].
      exists (num ++ snd). split; [reflexivity|]. now rewrite text_app.
  Qed.
End Verbatim.

(** ** Files *)

Section File.
  Context {D : Type}.
  Variable run_recipe : Z -> Z -> D -> result (list str * ctrl).
  Variable run_cpp : Z -> Z -> D -> cpp str.
  Variable mat_of : D -> Z.
  Variable registered : Z -> Z -> bool.
  Variable o : cwopts. Variable wo : wopts. Variable ro : ropts.
  Variable exclude include : selection.
  Hypothesis S : same_options o wo.
  Hypothesis K : cw_keepE o = false.
  Hypothesis N : cw_noexp o = false.
  Hypothesis W : r_width ro = 11%nat.

  Notation good mf mt s := (alike run_recipe run_cpp mat_of ro wo mf mt s /\ registered mf mt = true).
  Notation skip mf mt := (should_skip_section mf mt exclude include).
  Notation master_mts := (master_mts run_cpp mat_of registered o exclude include).
  Notation master_mfs := (master_mfs run_cpp mat_of registered o exclude include).

  Lemma section_same mf mt s num c : alike run_recipe run_cpp mat_of ro wo mf mt s ->
    write_section run_recipe ro wo false mf mt s = Ok (num, c) ->
    get_mat_from_mfmt_section mat_of s = Val (MAT c) /\ fits 4 (MAT c) /\
    match s with Parsed d => run_cpp mf mt d | Raw ls => write_section_verbatim o ls end = Val (text_of num).
  Proof.
    destruct s as [ls|d]; intros A H.
    - destruct A as (c' & L). destruct (verbatim_same o wo ro S K N W run_recipe mf mt c' ls L) as (num' & E & V).
      rewrite H in E. inversion E; subst num' c'. clear E.
      destruct L as (Ne & _ & _ & F & C). destruct ls as [|l0 r]; [contradiction|].
      assert (C0 : control_in c l0) by now inversion C.
      split; [|split; [now apply ctrl_fits_iff in F|exact V]]. cbn [get_mat_from_mfmt_section].
      destruct (control_in_cut c l0 F C0) as (_ & _ & _ & L).
      replace (length l0 <? 66)%nat with false by (symmetry; apply Nat.ltb_ge; lia). now apply mat_of_lines.
    - destruct (A num c H) as (E & F & V). apply in_field_fits in F; [|lia]. cbn. rewrite <- E. auto.
  Qed.

  (** the FEND record that C++ writes later than Python *)
  Definition pending (st : mstate) : cpp str :=
    if ms_seen st && negb (ms_last st =? 0)
    then match ms_mat st with Some mat => cpp_prepare_send mat 0 o | None => Undefined end else Val [].
  Definition after (mf : Z) (c : ctrl) (st : mstate) : Prop :=
    ms_last st = mf /\ ms_seen st = true /\ ms_mat st = Some (MAT c) /\ fits 4 (MAT c).

  Lemma mts_same mf mts : (forall mt s, In (mt, s) mts -> skip mf mt = false -> good mf mt s) ->
    forall st cur ls cur' p, write_mts run_recipe ro wo false exclude include mf mts cur = Ok (ls, cur') ->
    match cur with None => ms_last st <> mf /\ (ms_seen st = true -> mf <> 0) /\ pending st = Val p
                 | Some c => after mf c st end ->
    exists st', master_mts st mf mts =
        Val ((match cur, cur' with None, Some _ => p | _, _ => [] end) ++ text_of ls, st') /\
      match cur' with None => st' = st /\ ls = [] | Some c => after mf c st' end.
  Proof.
    induction mts as [|[mt s] mts IH]; intros G st cur ls cur' p H P.
    - cbn in H. inversion H; subst. exists st. destruct cur'; cbn; auto.
    - cbn [write_mts] in H. cbn [ModelCpp.master_mts]. rewrite selection_same, negb_involutive.
      assert (G' : forall mt0 s0, In (mt0, s0) mts -> skip mf mt0 = false -> good mf mt0 s0)
        by (intros; apply G; auto; now right).
      destruct (skip mf mt) eqn:Sk; [now apply (IH G' st cur ls cur' p)|].
      destruct (G mt s (or_introl eq_refl) Sk) as [A R].
      destruct (write_section run_recipe ro wo false mf mt s) as [[l1 c1]|] eqn:E1; [|discriminate]. cbn [bind] in H.
      destruct (write_mts run_recipe ro wo false exclude include mf mts (Some c1)) as [[l2 cur2]|] eqn:E2; [|discriminate].
      cbn [bind] in H. inversion H; subst ls cur'. clear H.
      destruct (section_same mf mt s l1 c1 A E1) as (GM & FM & TX).
      set (st1 := {| ms_mat := Some (MAT c1); ms_seen := true; ms_last := mf |}).
      assert (ST : master_step run_cpp mat_of registered o st mf mt s =
                   Val ((match cur with None => p | Some _ => [] end) ++ text_of l1, st1)).
      { unfold master_step. rewrite R, TX, GM. cbn [cbind].
        assert (FE : (if ms_seen st && negb (mf =? ms_last st) && negb (mf =? 0) && negb (ms_last st =? 0)
                      then match ms_mat st with Some mat => cpp_prepare_send mat 0 o | None => Undefined end
                      else Val []) = Val (match cur with None => p | Some _ => [] end)).
        { destruct cur as [c|].
          - destruct P as (-> & _ & _ & _). rewrite Z.eqb_refl. cbn [negb]. now rewrite andb_false_r.
          - destruct P as (P1 & P2 & P3). unfold pending in P3.
            destruct (ms_seen st); cbn [andb] in *; [|exact P3].
            replace (mf =? ms_last st) with false by (symmetry; apply Z.eqb_neq; lia).
            replace (mf =? 0) with false by (symmetry; apply Z.eqb_neq; auto). cbn [negb andb].
            exact P3. }
        rewrite FE. reflexivity. }
      rewrite ST. cbn [cbind].
      destruct (IH G' st1 (Some c1) l2 cur2 [] E2) as (st' & M & Af).
      { unfold after, st1. cbn. auto. }
      rewrite M. cbn [cbind].
      assert (exists c2, cur2 = Some c2) as (c2 & ->).
      { clear - E2. revert l2 c1 E2. induction mts as [|[mt s] mts IH]; intros l2 c1 E2; cbn [write_mts] in E2.
        - inversion E2. eauto.
        - destruct (skip mf mt); [eauto|].
          destruct (write_section run_recipe ro wo false mf mt s) as [[x y]|]; [|discriminate]. cbn [bind] in E2.
          destruct (write_mts run_recipe ro wo false exclude include mf mts (Some y)) as [[x2 y2]|] eqn:E3; [|discriminate].
          cbn [bind] in E2. inversion E2; subst. eauto. }
      exists st'. split; [|exact Af]. f_equal. f_equal. rewrite text_app.
      destruct cur as [c|]; cbn [app]; now rewrite <- ?app_assoc.
  Qed.

  Lemma pending_after mf c st : after mf c st -> mf <> 0 ->
    exists ls, write_fend wo false c = Ok ls /\ pending st = Val (text_of ls).
  Proof.
    intros (A1 & A2 & A3 & A4) Z. destruct (fend_same o wo S K N c A4) as (ls & E & V). exists ls. split; auto.
    unfold pending. rewrite A2, A3, A1. replace (mf =? 0) with false by (symmetry; now apply Z.eqb_neq). exact V.
  Qed.

  Lemma mfs_same mfs : ascending (map fst mfs) -> (forall mf mts, In (mf, mts) mfs -> 0 <= mf) ->
    (forall mf mts mt s, In (mf, mts) mfs -> In (mt, s) mts -> skip mf mt = false -> good mf mt s) ->
    forall st ls p, write_mfs run_recipe ro wo false exclude include mfs = Ok ls ->
    (forall mf mts, In (mf, mts) mfs -> ms_last st < mf) -> (ms_seen st = true -> 0 <= ms_last st) -> pending st = Val p ->
    exists t st' p', master_mfs st mfs = Val (t, st') /\ pending st' = Val p' /\ t ++ p' = p ++ text_of ls /\
      ((ms_seen st = true -> ms_last st <> 0 -> ms_seen st' = true /\ ms_last st' <> 0) /\
       ((exists mf mts mt s, In (mf, mts) mfs /\ mf <> 0 /\ In (mt, s) mts /\ skip mf mt = false) ->
        ms_seen st' = true /\ ms_last st' <> 0)).
  Proof.
    induction mfs as [|[mf mts] mfs IH]; intros As Po G st ls p H Lt Po0 P.
    - cbn in H. inversion H; subst. exists [], st, p. repeat split; cbn; auto. now rewrite app_nil_r.
      all: destruct H0 as (? & ? & ? & ? & [] & _).
    - cbn [write_mfs] in H.
      destruct (write_mts run_recipe ro wo false exclude include mf (zsort mts) None) as [[l1 cur]|] eqn:E1; [|discriminate].
      cbn [bind] in H.
      destruct (match cur with Some c => if mf =? 0 then Ok [] else write_fend wo false c | None => Ok [] end)
        as [fend|] eqn:E2; [|discriminate]. cbn [bind] in H.
      destruct (write_mfs run_recipe ro wo false exclude include mfs) as [rest|] eqn:E3; [|discriminate]. cbn [bind] in H.
      inversion H; subst ls. clear H.
      assert (Lm : ms_last st < mf) by (eapply Lt; now left).
      assert (Pm : 0 <= mf) by (eapply Po; now left).
      destruct (mts_same mf (zsort mts)) with (st := st) (cur := @None ctrl) (ls := l1) (cur' := cur) (p := p)
        as (st1 & M & Af); auto.
      { intros mt s I Sk. apply (G mf mts mt s); [now left|now apply (zsort_in mts)|exact Sk]. }
      { split; [lia|]. split; [|exact P]. intros Sn. specialize (Po0 Sn). lia. }
      cbn [ModelCpp.master_mfs]. rewrite M. cbn [cbind].
      assert (As' : ascending (map fst mfs)) by now inversion As.
      assert (Fa : forall mf' mts', In (mf', mts') mfs -> mf < mf').
      { inversion As as [|? ? _ F]; subst. rewrite Forall_forall in F. intros mf' mts' I. apply F.
        apply (in_map fst) in I. exact I. }
      assert (Po' : forall mf0 mts0, In (mf0, mts0) mfs -> 0 <= mf0) by (intros mf0 mts0 I; eapply Po; right; exact I).
      assert (G' : forall mf0 mts0 mt s, In (mf0, mts0) mfs -> In (mt, s) mts0 -> skip mf0 mt = false -> good mf0 mt s)
        by (intros mf0 mts0 mt s I; apply (G mf0 mts0); now right).
      destruct cur as [c|].
      + pose proof Af as (A1 & A2 & A3 & A4).
        assert (PP : exists q, pending st1 = Val q /\ q = text_of fend).
        { destruct (Z.eqb_spec mf 0) as [Z|Z].
          - inversion E2; subst fend. exists []. split; [|reflexivity]. unfold pending. rewrite A1, Z. cbn [Z.eqb negb].
            now rewrite andb_false_r.
          - destruct (pending_after mf c st1 Af Z) as (ls & E & V). exists (text_of ls). split; auto. congruence. }
        destruct PP as (q & PQ & ->).
        destruct (IH As' Po' G' st1 rest (text_of fend) eq_refl) as (t & st' & p' & M2 & P2 & TT & X1 & X2); auto.
        { intros mf' mts' I. rewrite A1. eapply Fa; exact I. }
        { intros _. lia. }
        rewrite M2. cbn [cbind]. eexists _, st', p'. split; [reflexivity|]. split; [exact P2|]. split.
        { rewrite <- !app_assoc, TT. rewrite !text_app. now rewrite <- ?app_assoc. }
        assert (X3 : mf <> 0 -> ms_seen st' = true /\ ms_last st' <> 0) by (intros Z; apply X1; congruence).
        split.
        * intros Sn L0. apply X3. specialize (Po0 Sn). lia.
        * intros (mf0 & mts0 & mt & s & I & Z & J & Sk). destruct I as [I|I].
          { inversion I; subst. auto. }
          apply X2. exists mf0, mts0, mt, s. auto.
      + destruct Af as [-> ->]. inversion E2; subst fend.
        destruct (IH As' Po' G' st rest p eq_refl) as (t & st' & p' & M2 & P2 & TT & X1 & X2); auto.
        { intros mf' mts' I. apply Fa in I. lia. }
        rewrite M2. cbn [cbind]. exists t, st', p'. split; [reflexivity|]. split; [exact P2|]. split; [exact TT|].
        split; [exact X1|]. intros (mf0 & mts0 & mt & s & I & Z & J & Sk). destruct I as [I|I].
        * exfalso. inversion I; subst mf0 mts0. apply (zsort_in mts) in J.
          clear - E1 J Sk. revert E1. generalize (@None ctrl) at 1 as cu.
          assert (Gn : forall l cu ls, write_mts run_recipe ro wo false exclude include mf l (Some cu) <> Ok (ls, None)).
          { induction l as [|[a b] l IHl]; intros cu ls H; cbn [write_mts] in H; [discriminate|].
            destruct (skip mf a); [now apply IHl in H|].
            destruct (write_section run_recipe ro wo false mf a b) as [[x y]|]; [|discriminate]. cbn [bind] in H.
            destruct (write_mts run_recipe ro wo false exclude include mf l (Some y)) as [[x2 y2]|] eqn:E3; [|discriminate].
            cbn [bind] in H. inversion H; subst. now apply IHl in E3. }
          induction (zsort mts) as [|[a b] l IHl]; [destruct J|]. intros cu E1. cbn [write_mts] in E1.
          destruct J as [J|J].
          -- inversion J; subst. rewrite Sk in E1.
             destruct (write_section run_recipe ro wo false mf mt s) as [[x y]|]; [|discriminate]. cbn [bind] in E1.
             destruct (write_mts run_recipe ro wo false exclude include mf l (Some y)) as [[x2 y2]|] eqn:E3; [|discriminate].
             cbn [bind] in E1. inversion E1; subst. now apply Gn in E3.
          -- destruct (skip mf a); [now apply (IHl J cu)|].
             destruct (write_section run_recipe ro wo false mf a b) as [[x y]|]; [|discriminate]. cbn [bind] in E1.
             destruct (write_mts run_recipe ro wo false exclude include mf l (Some y)) as [[x2 y2]|] eqn:E3; [|discriminate].
             cbn [bind] in E1. inversion E1; subst. now apply Gn in E3.
        * apply X2. exists mf0, mts0, mt, s. auto.
  Qed.

  Lemma file_same d lines : is_dict d -> (forall mf mts, In (mf, mts) d -> 0 <= mf) ->
    (forall mf mt s, holds d mf mt s -> skip mf mt = false -> good mf mt s) ->
    (exists mf mt s, holds d mf mt s /\ mf <> 0 /\ skip mf mt = false) ->
    write_tape run_recipe ro wo false exclude include d = Ok lines ->
    master_write run_cpp mat_of registered o exclude include d = Val (text_of lines).
  Proof.
    intros Di Po G Ex H. unfold write_tape in H.
    match type of H with bind ?x _ = _ => destruct x as [ls|] eqn:E; [|discriminate] end. cbn [bind] in H.
    destruct (mend_same o wo S K N) as (me & E2 & V2). destruct (tend_same o wo S K N) as (te & E3 & V3).
    rewrite E2, E3 in H. cbn [bind] in H. inversion H; subst lines. clear H.
    set (st0 := {| ms_mat := None; ms_seen := false; ms_last := -9999 |}).
    destruct (mfs_same (zsort d)) with (st := st0) (ls := ls) (p := @nil ascii)
      as (t & st' & p' & M & P & TT & _ & X); auto.
    - now apply zsort_ascending.
    - intros mf mts I. apply (zsort_in d) in I. eauto.
    - intros mf mts mt s I J Sk. apply (zsort_in d) in I. apply G; auto. exists mts. auto.
    - intros mf mts I. apply (zsort_in d) in I. apply Po in I. cbn. lia.
    - discriminate.
    - unfold master_write. fold st0. match goal with |- cbind ?x _ = _ => replace x with (Val (t, st') : cpp (str * mstate)) by (symmetry; exact M) end. cbn [cbind].
      destruct X as [X1 X2].
      { destruct Ex as (mf & mt & s & (mts & I & J) & Z & Sk). exists mf, mts, mt, s. repeat split; auto.
        now apply (zsort_in d). }
      unfold pending in P. rewrite X1 in P. replace (ms_last st' =? 0) with false in P by (symmetry; now apply Z.eqb_neq).
      cbn [negb andb] in P. destruct (ms_mat st') as [mat|]; [|discriminate]. rewrite P, V2, V3. cbn [cbind].
      f_equal. rewrite !text_app, app_assoc, TT. reflexivity.
  Qed.
End File.

Lemma fend_same_field o wo : same_options o wo -> cw_keepE o = false -> cw_noexp o = false ->
  forall c, in_field 4 (MAT c) -> exists ls, write_fend wo false c = Ok ls /\
  cpp_prepare_send (MAT c) 0 o = Val (text_of ls).
Proof. intros S K N c F. apply fend_same; auto. apply in_field_fits; auto. Qed.
Lemma file_same_selected : forall D (run_recipe : Z -> Z -> D -> result (list str * ctrl))
    (run_cpp : Z -> Z -> D -> cpp str) (mat_of : D -> Z) registered o wo ro exclude include,
  same_options o wo -> cw_keepE o = false -> cw_noexp o = false -> r_width ro = 11%nat ->
  forall d lines, is_dict d -> (forall mf mts, In (mf, mts) d -> 0 <= mf) ->
  (forall mf mt s, holds d mf mt s -> selected exclude include mf mt ->
     alike run_recipe run_cpp mat_of ro wo mf mt s /\ registered mf mt = true) ->
  (exists mf mt s, holds d mf mt s /\ mf <> 0 /\ selected exclude include mf mt) ->
  write_tape run_recipe ro wo false exclude include d = Ok lines ->
  master_write run_cpp mat_of registered o exclude include d = Val (text_of lines).
Proof.
  intros D rr rc mo reg o wo ro exc inc S K N W d lines Di Po G Ex H.
  apply (file_same rr rc mo reg o wo ro exc inc S K N W d lines Di Po); auto.
  - intros mf mt s Hs Sk. apply G; auto. now apply selected_iff.
  - destruct Ex as (mf & mt & s & A & B & C). exists mf, mt, s. repeat split; auto. now apply selected_iff.
Qed.
