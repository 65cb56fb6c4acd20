(** Lines that both parsers read: the generated C++ and the Python interpreter get the same
    numbers from them. *)
From Coq Require Import Ascii String ZArith QArith Bool Lia List.
From Coq Require Import Floats.SpecFloat.
From Verif Require Import PyBase ProofPyBase PyFloat ModelFortran ModelRecords SpecFields ProofFields SpecFloat ModelNum ModelRecipe
  ModelCpp ModelCppTab SpecCpp SpecCppTab ProofCpp ProofCppVec ProofCppTab.
From Verif Require Import ModelInterp SpecCppRead ModelCppArr ModelCppGen SpecCppGen ProofInterp ProofInterpFrame ProofTape.
Import ListNotations.
Open Scope Z_scope.

(** ** Fields *)

Lemma c_int_val v z : c_int v = Val z -> z = v /\ int32 v.
Proof.
  unfold c_int, int32. destruct ((- 2 ^ 31 <=? v) && (v <? 2 ^ 31)) eqn:E; [|discriminate].
  intros H. injection H as <-. apply andb_true_iff in E as [A B]. apply Z.leb_le in A. apply Z.ltb_lt in B. auto.
Qed.
Lemma int32_0 : int32 0.
Proof. unfold int32. split; [apply Z.opp_nonpos_nonneg|]; reflexivity || (vm_compute; congruence). Qed.

Lemma int_both s v z : number_field s -> read_fort_int s = Ok v -> endfstr2int s = Val z -> z = v /\ int32 v.
Proof.
  intros N H E. unfold read_fort_int in H. unfold endfstr2int in E. destruct (is_blank s) eqn:B.
  - apply is_blank_iff in B. apply ws_only_spaces, all_spaces_iff in B; auto. rewrite B in E.
    injection H as <-. injection E as <-. split; [reflexivity|exact int32_0].
  - destruct (int_of_str s) as [y|] eqn:I; [|discriminate]. injection H as ->.
    destruct (all_spaces s) eqn:A.
    { apply all_spaces_iff, only_spaces_ws, is_blank_iff in A. congruence. }
    rewrite (atoi_int s v N I) in E. now apply c_int_val.
Qed.
Lemma ctrl_both s v z : number_field s -> ctrl_int s = Ok v -> (if all_spaces s then Val 0 else atoi s) = Val z -> z = v.
Proof.
  intros N H E. unfold ctrl_int in H. destruct (all_spaces s) eqn:A.
  - apply all_spaces_iff, only_spaces_ws, strip_nil_iff in A. rewrite A in H. congruence.
  - destruct (strip s) as [|c t] eqn:S.
    { apply strip_nil_iff, ws_only_spaces, all_spaces_iff in S; auto. congruence. }
    rewrite <- S, int_of_str_strip in H. destruct (int_of_str s) as [y|] eqn:I; [|discriminate]. injection H as ->.
    rewrite (atoi_int s v N I) in E. now apply c_int_val in E as [E _].
Qed.
Lemma float_both ro s v f : r_width ro = 11%nat -> (length s <= 11)%nat -> number_field s -> read_fort_float ro s = Ok v ->
  endfstr2float (r_spaces ro) s = Val f -> same_number v {| ef_value := f; ef_orig := if r_preserve ro then s else [] |}.
Proof.
  intros W L N H E. destruct (float_field_same ro s v W L N H) as (g & V & C).
  assert (G : g = f).
  { destruct C as [(_ & _ & C)|(t & neg & m & e & _ & _ & _ & C1 & C2)]; [congruence|].
    destruct (endfstr2float (r_spaces ro) s) as [h| |] eqn:Q; try discriminate. injection E as ->.
    assert (D : in_double_range m e \/ ~ in_double_range m e).
    { unfold in_double_range. destruct (Z.eq_dec m 0) as [M|M]; [left; now left|].
      destruct (Qlt_le_dec (decimalQ m e) (Qpower 2 (-1022))) as [A|A].
      { right. intros [X|[X _]]; [contradiction|]. exact (Qlt_not_le _ _ A X). }
      destruct (Qlt_le_dec (decimalQ m e) overflow_threshold) as [B|B]; [left; right; auto|].
      right. intros [X|[_ X]]; [contradiction|]. exact (Qlt_not_le _ _ X B). }
    destruct D as [D|D]; [specialize (C1 D); congruence|specialize (C2 D); discriminate]. }
  subst g v. unfold same_number. destruct (r_preserve ro); cbn [andb].
  - destruct (is_blank s) eqn:B; cbn [negb ef_value ef_orig]; split; auto.
    apply ws_only_spaces; auto. now apply is_blank_iff.
  - cbn [ef_value ef_orig]. split; auto. intros c [].
Qed.

(** what Python reads from a field of the type *)
Definition reads_as (ro : ropts) (t : ctype) (s : str) (v : num) : Prop :=
  match t with
  | TFloat => read_fort_float ro s = Ok v
  | TInt => exists z, v = NInt z /\ read_fort_int s = Ok z
  | TStr => False
  end.
Definition numeric (l : str) : Prop := number_field (firstn 66 l).
Lemma cfield_number l j : number_line l -> (j < 6)%nat ->
  number_field (cfield l j) /\ (length (cfield l j) <= 11)%nat /\ (11 * j + 11 <= length l)%nat.
Proof.
  intros [(L & _) N] J. split; [|split].
  - eapply number_field_sub; [exact N|]. intros c I. unfold cfield, slice in I.
    rewrite <- (firstn_skipn (11 * j) (firstn 66 l)). apply in_or_app. right.
    rewrite skipn_firstn_comm. replace (66 - 11 * j)%nat with (11 + (55 - 11 * j))%nat by lia.
    replace (11 * j + 11 - 11 * j)%nat with 11%nat in I by lia.
    revert I. generalize (skipn (11 * j) l). clear. intros l I.
    rewrite <- (firstn_skipn 11 (firstn (11 + (55 - 11 * j)) l)), firstn_firstn. apply in_or_app. left.
    now replace (Nat.min 11 (11 + (55 - 11 * j))) with 11%nat by lia.
  - unfold cfield. rewrite length_slice. lia.
  - lia.
Qed.
Lemma field_alike o ro t l j v w : same_reading o ro -> number_line l -> (j < 6)%nat -> reads_as ro t (cfield l j) v ->
  read_field o t l j = Val w -> num_alike v w.
Proof.
  intros (W & S & P) N J R H. destruct (cfield_number l j N J) as (NF & LF & LL).
  destruct t; cbn [read_field reads_as] in *.
  - destruct R as (z & -> & R). unfold cpp_read_int_field in H.
    replace (length l <? 11 * j + 11)%nat with false in H by (symmetry; apply Nat.ltb_ge; exact LL).
    destruct (endfstr2int (cfield l j)) as [y| |] eqn:E; try discriminate. cbn [cbind] in H. injection H as <-.
    destruct (int_both _ _ _ NF R E) as [-> _]. reflexivity.
  - unfold cpp_read_endf_field, cpp_read_float_field in H.
    replace (length l <? 11 * j + 11)%nat with false in H by (symmetry; apply Nat.ltb_ge; exact LL).
    destruct (endfstr2float (co_accept o) (cfield l j)) as [f| |] eqn:E; try discriminate. cbn [cbind] in H.
    injection H as <-. unfold num_alike, num_of. cbn [ef_value ef_orig]. rewrite <- P. rewrite <- S in E.
    now apply float_both.
  - destruct R.
Qed.

(** ** Lists of numbers of C++ *)

Lemma Forall2_weak {A B} (P Q : A -> B -> Prop) l m : (forall a b, P a b -> Q a b) -> Forall2 P l m -> Forall2 Q l m.
Proof. intros H F. induction F; constructor; auto. Qed.
Lemma Forall2_map_l {A B C} (f : C -> A) (P : A -> B -> Prop) l m : Forall2 (fun c b => P (f c) b) l m -> Forall2 P (map f l) m.
Proof. intros F. induction F; constructor; auto. Qed.
Lemma Forall2_join {I A B} (P : I -> A -> Prop) (Q : I -> B -> Prop) (R : A -> B -> Prop) is_ : forall l m,
  (forall i a b, In i is_ -> P i a -> Q i b -> R a b) -> Forall2 P is_ l -> Forall2 Q is_ m -> Forall2 R l m.
Proof.
  induction is_ as [|i is_ IH]; intros l m H F G; inversion F; subst; inversion G; subst; constructor.
  - eapply H; eauto. now left.
  - apply IH; auto. intros j a b J. apply H. now right.
Qed.

Lemma vec_loop_points {A} validate c (rd : str -> nat -> cpp A) : forall n line j lines xs r, (j < 6)%nat ->
  cpp_vec_loop validate c rd (S n) line j lines = Val (xs, r) ->
  r = skipn ((j + n) / 6) lines /\ ((j + n) / 6 <= length lines)%nat /\
  Forall2 (fun k x => rd (nth ((j + k) / 6) (line :: lines) []) ((j + k) mod 6)%nat = Val x) (seq 0 (S n)) xs.
Proof.
  induction n as [|n IH]; intros line j lines xs r J H.
  - cbn [cpp_vec_loop] in H. destruct (rd line j) as [v| |] eqn:E; try discriminate. cbn [cbind] in H.
    rewrite andb_false_r in H. cbn [cbind] in H. injection H as <- <-.
    rewrite Nat.add_0_r, Nat.div_small by lia. split; [reflexivity|]. split; [lia|].
    cbn [seq]. constructor; [|constructor]. now rewrite Nat.add_0_r, Nat.div_small, Nat.mod_small by lia.
  - remember (S n) as m eqn:M. cbn [cpp_vec_loop] in H. destruct (rd line j) as [v| |] eqn:E; try discriminate. cbn [cbind] in H.
    assert (Z0 : (0 <? m)%nat = true) by (apply Nat.ltb_lt; lia). rewrite Z0, andb_true_r in H.
    assert (HD : rd (nth ((j + 0) / 6) (line :: lines) []) ((j + 0) mod 6)%nat = Val v)
      by now rewrite Nat.add_0_r, Nat.div_small, Nat.mod_small by lia.
    destruct (Nat.ltb_spec 5 (S j)) as [J5|J5].
    + assert (j = 5)%nat by lia. subst j.
      destruct (cpp_read_line validate c lines) as [[l ls]| |] eqn:RL; try discriminate. cbn [cbind] in H.
      assert (lines = l :: ls) as ->.
      { unfold cpp_read_line in RL. destruct lines as [|y ys]; [discriminate|]. destruct validate; [|injection RL as -> ->; reflexivity].
        repeat match type of RL with context [cbind ?a _] => destruct a as [?| |]; try discriminate; cbn [cbind] in RL end.
        destruct (_ && _); [injection RL as -> ->; reflexivity|discriminate]. }
      subst m. destruct (cpp_vec_loop validate c rd (S n) l 0 ls) as [[ws rs]| |] eqn:Q; try discriminate. cbn [cbind] in H.
      injection H as <- <-. destruct (IH l 0%nat ls ws rs ltac:(lia) Q) as (-> & LL & F). cbn [plus] in F, LL.
      replace (0 + n)%nat with n by reflexivity. replace (5 + S n)%nat with (1 * 6 + n)%nat by lia. rewrite Nat.div_add_l by lia. split; [reflexivity|]. split; [cbn [length]; lia|].
      change (seq 0 (S (S n))) with (0%nat :: seq 1 (S n)). constructor; [exact HD|].
      rewrite <- seq_shift. apply Forall2_map_l. revert F. apply Forall2_weak. intros k x K.
      replace (5 + S k)%nat with (1 * 6 + k)%nat by lia. rewrite Nat.div_add_l by lia.
      rewrite (Nat.add_comm (1 * 6) k), Nat.mod_add by lia. exact K.
    + cbn [cbind] in H. subst m. destruct (cpp_vec_loop validate c rd (S n) line (S j) lines) as [[ws rs]| |] eqn:Q; try discriminate. cbn [cbind] in H.
      injection H as <- <-. destruct (IH line (S j) lines ws rs ltac:(lia) Q) as (-> & LL & F).
      replace (S j + n)%nat with (j + S n)%nat in * by lia. split; [reflexivity|]. split; [exact LL|].
      change (seq 0 (S (S n))) with (0%nat :: seq 1 (S n)). constructor; [exact HD|].
      rewrite <- seq_shift. apply Forall2_map_l. revert F. apply Forall2_weak. intros k x K.
      now replace (j + S k)%nat with (S j + k)%nat by lia.
Qed.

Lemma read_line_taken validate c lines l r : cpp_read_line validate c lines = Val (l, r) -> lines = l :: r.
Proof.
  unfold cpp_read_line. destruct lines as [|y ys]; [discriminate|]. destruct validate; [|intros H; injection H as -> ->; reflexivity].
  intros RL. repeat match type of RL with context [cbind ?a _] => destruct a as [?| |]; try discriminate; cbn [cbind] in RL end.
  destruct (_ && _); [injection RL as -> ->; reflexivity|discriminate].
Qed.
Lemma vec_points {A} validate c (rd : str -> nat -> cpp A) n lines xs r : (0 < n)%nat ->
  cpp_vec validate c rd n lines = Val (xs, r) ->
  r = skipn ((n + 5) / 6) lines /\ ((n + 5) / 6 <= length lines)%nat /\
  Forall2 (fun k x => rd (nth (k / 6) lines []) (k mod 6)%nat = Val x) (seq 0 n) xs.
Proof.
  intros P H. unfold cpp_vec in H. destruct (cpp_read_line validate c lines) as [[l ls]| |] eqn:RL; try discriminate. cbn [cbind] in H.
  apply read_line_taken in RL as ->. destruct n as [|n]; [lia|].
  apply vec_loop_points in H as (-> & L & F); [|lia]. cbn [plus] in L, F.
  replace (0 + n)%nat with n by reflexivity.
  replace (S n + 5)%nat with (1 * 6 + n)%nat by lia. rewrite Nat.div_add_l by lia. split; [reflexivity|]. split; [cbn [length]; lia|]. exact F.
Qed.

(** ** Lines of a section *)

Lemma loop_offset ro lines : forall fuel num ofs vals ofs', (Z.to_nat num <= fuel)%nat -> read_numbers_loop ro fuel lines num ofs = Ok (vals, ofs') ->
  ofs' = (ofs + (Z.to_nat num + 5) / 6)%nat.
Proof.
  induction fuel as [|f IH]; intros num ofs vals ofs' Fu H; cbn [read_numbers_loop] in H.
  { inversion H; subst. replace (Z.to_nat num) with 0%nat by lia. cbn. lia. }
  destruct (Z.leb_spec num 0) as [N|N]; [inversion H; subst; replace (Z.to_nat num) with 0%nat by lia; cbn; lia|].
  destruct (get_line lines ofs) as [l|e] eqn:G; cbn [bind] in H; [|discriminate H].
  destruct (read_fort_floats ro l (Z.to_nat (Z.min 6 num))) as [vs|e]; [|cbn [bind] in H; discriminate H]. cbn [bind] in H.
  destruct (read_numbers_loop ro f lines (num - 6) (S ofs)) as [[rest o]|e] eqn:Q; [|cbn [bind] in H; discriminate H].
  cbn [bind] in H. inversion H; subst. apply IH in Q; [|lia]. rewrite Q.
  destruct (Z.leb_spec num 6) as [N6|N6].
  - replace (Z.to_nat (num - 6)) with 0%nat by lia. change ((0 + 5) / 6)%nat with 0%nat.
    rewrite <- (Nat.div_unique (Z.to_nat num + 5) 6 1 (Z.to_nat num - 1)) by lia. lia.
  - replace (Z.to_nat num + 5)%nat with (1 * 6 + (Z.to_nat (num - 6) + 5))%nat by lia.
    rewrite Nat.div_add_l by lia. lia.
Qed.
Lemma line_count k n : (k < n)%nat -> (k / 6 < (n + 5) / 6)%nat.
Proof.
  intros H. assert (S (k / 6) <= (n + 5) / 6)%nat; [|lia].
  replace (S (k / 6)) with ((1 * 6 + k) / 6)%nat by (rewrite Nat.div_add_l by lia; lia). apply Nat.div_le_mono; lia.
Qed.
Lemma skipn_skipn' {A} i j : forall l : list A, skipn i (skipn j l) = skipn (j + i) l.
Proof. induction j as [|j IH]; intros [|x l]; cbn [skipn plus]; auto. now rewrite skipn_nil. Qed.
Lemma nth_skipn_add {A} (d : A) i : forall l k, nth k (skipn i l) d = nth (i + k) l d.
Proof. induction i as [|i IH]; intros [|y l] k; cbn [skipn nth plus]; auto. now destruct k. Qed.

Section Lines.
  Variables (body ends : list str) (send : str) (o : copts) (ro : ropts).
  Hypothesis SR : same_reading o ro.
  Hypothesis NL : Forall plain_line body.
  Definition py_lines : list str := map with_break body ++ [send].
  Definition c_lines : list str := body ++ ends.

  Lemma line_at i : (i < length body)%nat ->
    exists l, nth_error c_lines i = Some l /\ nth_error py_lines i = Some (with_break l) /\ plain_line l.
  Proof.
    intros I. destruct (nth_error body i) as [l|] eqn:E; [|apply nth_error_None in E; lia].
    exists l. unfold c_lines, py_lines. rewrite !nth_error_app1 by (rewrite ?map_length; lia). split; [exact E|].
    split; [now rewrite nth_error_map, E|]. rewrite Forall_forall in NL. apply NL. eapply nth_error_In; eauto.
  Qed.
  Lemma line_break l j : plain_line l -> (j < 6)%nat -> slice (j * 11) (j * 11 + 11) (with_break l) = cfield l j.
  Proof.
    intros N J. assert (L : (11 * j + 11 <= length l)%nat) by (destruct N as (N & _); lia). unfold cfield. rewrite (Nat.mul_comm 11 j) in *.
    unfold with_break. now apply slice_app_l.
  Qed.
  Lemma skip_line i p : skip_blank_lines py_lines i = Ok p -> (i < length body)%nat -> p = i.
  Proof.
    intros H I. apply skip_ok in H as (L & B & _). destruct (Nat.eq_dec p i) as [|D]; auto. exfalso.
    destruct (line_at i I) as (l & _ & E & PL). specialize (B i _ ltac:(lia) E). destruct PL as (LL & _ & NB2 & _).
    apply is_blank_iff in B. unfold all_ws in B. rewrite Forall_forall in B. apply NB2. intros c Hc.
    assert (In c (with_break l)).
    { unfold with_break. apply in_or_app. left. unfold slice in Hc. apply in_firstn in Hc. now apply in_skipn in Hc. }
    specialize (B c H). exact B.
  Qed.

  Lemma field_break l j : plain_line l -> (j < 6)%nat -> field (r_width ro) j (with_break l) = cfield l j.
  Proof.
    intros N J. destruct SR as (-> & _). unfold field. replace (S j * 11)%nat with (j * 11 + 11)%nat by lia. now apply line_break.
  Qed.
  Lemma cont_read i r c i' : read_cont ro py_lines i = Ok (r, c, i') -> (i < length body)%nat ->
    exists l, nth_error c_lines i = Some l /\ plain_line l /\ i' = S i /\ read_ctrl ro (with_break l) = Ok c /\
      reads_as ro TFloat (cfield l 0) (C1 r) /\ reads_as ro TFloat (cfield l 1) (C2 r) /\ reads_as ro TInt (cfield l 2) (L1 r) /\
      reads_as ro TInt (cfield l 3) (L2 r) /\ reads_as ro TInt (cfield l 4) (N1 r) /\ reads_as ro TInt (cfield l 5) (N2 r).
  Proof.
    intros H I. destruct (line_at i I) as (l & E1 & E2 & N). exists l. unfold read_cont, get_line in H. rewrite E2 in H. cbn [bind] in H.
    rewrite !field_break in H by (auto; lia).
    repeat match type of H with
    | bind ?m _ = Ok _ => let E := fresh "E" in destruct m eqn:E; cbn [bind] in H; [|discriminate H]
    end.
    injection H as <- <- <-. cbn [C1 C2 L1 L2 N1 N2 reads_as]. do 5 (split; [first [assumption|reflexivity]|]); eauto 20.
  Qed.
  Lemma field_no_line i k : (i + k / 6 < length body)%nat ->
    field_no py_lines i k = cfield (nth (i + k / 6) c_lines []) (k mod 6) /\ plain_line (nth (i + k / 6) c_lines []).
  Proof.
    intros I. destruct (line_at _ I) as (l & E1 & E2 & N).
    assert (nth (i + k / 6) c_lines [] = l) as -> by now apply nth_error_nth.
    assert (P2 : nth (i + k / 6) py_lines [] = with_break l) by now apply nth_error_nth.
    split; [|exact N]. unfold field_no. rewrite P2. apply line_break; [exact N|]. apply Nat.mod_upper_bound. lia.
  Qed.
  Lemma numbers_at num i vals i' : read_numbers_loop ro (Z.to_nat num) py_lines num i = Ok (vals, i') -> (i' <= length body)%nat ->
    i' = (i + (Z.to_nat num + 5) / 6)%nat /\
    Forall2 (fun k v => read_fort_float ro (cfield (nth (i + k / 6) c_lines []) (k mod 6)) = Ok v) (seq 0 (Z.to_nat num)) vals.
  Proof.
    intros H I. pose proof H as O. apply loop_offset in O; [|lia]. split; [exact O|].
    apply loop_fields in H; [|apply SR|lia].
    assert (K : forall a n l, (a + n <= Z.to_nat num)%nat -> Forall2 (fun k v => read_fort_float ro (field_no py_lines i k) = Ok v) (seq a n) l ->
      Forall2 (fun k v => read_fort_float ro (cfield (nth (i + k / 6) c_lines []) (k mod 6)) = Ok v) (seq a n) l).
    { intros a n; revert a; induction n as [|n IH]; intros a l B F; cbn [seq] in *; inversion F; subst; constructor; [|apply IH; [lia|assumption]].
      destruct (field_no_line i a) as [<- _]; auto. pose proof (line_count a (Z.to_nat num)). lia. }
    apply K; auto.
  Qed.

  (** the lines of a note *)
  Lemma taken_lines (l : list str) n : (n <= length l)%nat -> taken (skipn n l) l = firstn n l.
  Proof. intros H. unfold taken. rewrite skipn_length. f_equal. lia. Qed.
  Lemma taken_numeric i n : (n <= length (skipn i c_lines))%nat -> Forall numeric (taken (skipn n (skipn i c_lines)) (skipn i c_lines)) ->
    forall j, (j < n)%nat -> numeric (nth (i + j) c_lines []).
  Proof.
    intros L H j J. rewrite taken_lines in H by exact L. rewrite <- nth_skipn_add. rewrite Forall_forall in H. apply H.
    revert j J L. generalize (skipn i c_lines). clear. intros l. revert n. induction l as [|x l IH]; intros [|n] j J L; cbn [length] in L; try lia.
    destruct j as [|j]; [now left|]. right. apply IH; lia.
  Qed.

  (** a list of real numbers *)
  Lemma floats_both validate c num i vals i' xs r : 0 < num ->
    (forall k, (k < Z.to_nat num)%nat -> numeric (nth (i + k / 6) c_lines [])) ->
    read_endf_numbers ro false py_lines num i = Ok (vals, i') -> (i' <= length body)%nat ->
    cpp_vec validate c (cpp_read_endf_field (co_accept o) (co_preserve o)) (Z.to_nat num) (skipn i c_lines) = Val (xs, r) ->
    Forall2 same_number vals xs /\ r = skipn i' c_lines.
  Proof.
    intros P NU H I V. unfold read_endf_numbers in H.
    destruct (read_numbers_loop ro (Z.to_nat num) py_lines num i) as [[vs j]|e] eqn:L; [|discriminate H]. cbn [bind] in H. injection H as <- <-.
    destruct (numbers_at _ _ _ _ L I) as [-> F]. apply vec_points in V as (-> & _ & G); [|lia].
    split; [|now rewrite skipn_skipn'; f_equal; lia].
    eapply Forall2_join; [|exact F|exact G]. intros k v x K R X. cbn beta in X. rewrite nth_skipn_add in X. apply in_seq in K.
    destruct (field_no_line i k) as [_ N0]; [pose proof (line_count k (Z.to_nat num)); lia|].
    pose proof (conj N0 (NU k ltac:(lia)) : number_line _) as N.
    assert (J : (k mod 6 < 6)%nat) by (apply Nat.mod_upper_bound; lia).
    pose proof (field_alike o ro TFloat _ _ v (num_of x) SR N J R) as Q. cbn [read_field] in Q. rewrite X in Q. cbn [cbind] in Q.
    specialize (Q eq_refl). unfold num_alike, num_of in Q. now destruct x.
  Qed.
  (** a list of integers *)
  Lemma ints_both validate c num i vals i' xs r : 0 < num ->
    (forall k, (k < Z.to_nat num)%nat -> numeric (nth (i + k / 6) c_lines [])) ->
    (forall k, (k < Z.to_nat num)%nat -> exists z, read_fort_int (field_no (skipn i c_lines) 0 k) = Ok z) ->
    read_endf_numbers ro true py_lines num i = Ok (vals, i') -> (i' <= length body)%nat ->
    cpp_vec validate c cpp_read_int_field (Z.to_nat num) (skipn i c_lines) = Val (xs, r) ->
    vals = map NInt xs /\ r = skipn i' c_lines.
  Proof.
    intros P NU RI H I V. unfold read_endf_numbers in H.
    destruct (read_numbers_loop ro (Z.to_nat num) py_lines num i) as [[vs j]|e] eqn:L; [|discriminate H]. cbn [bind] in H.
    assert (J : j = i').
    { destruct (mapM to_int1 vs) as [?|e]; [injection H as _ <-; reflexivity|]. destruct e; try discriminate; injection H as _ <-; reflexivity. }
    subst j. destruct (numbers_at _ _ _ _ L I) as [-> F]. apply vec_points in V as (-> & _ & G); [|lia].
    split; [|now rewrite skipn_skipn'; f_equal; lia].
    assert (Q : Forall2 (fun v x => to_int1 v = Ok (NInt x)) vs xs).
    { eapply Forall2_join; [|exact F|exact G]. intros k v x K R X. cbn beta in X. rewrite nth_skipn_add in X. apply in_seq in K.
      destruct (field_no_line i k) as [_ N0]; [pose proof (line_count k (Z.to_nat num)); lia|].
      pose proof (conj N0 (NU k ltac:(lia)) : number_line _) as N.
      assert (J : (k mod 6 < 6)%nat) by (apply Nat.mod_upper_bound; lia).
      destruct (RI k ltac:(lia)) as (z & Z). unfold field_no in Z. cbn [plus] in Z. rewrite nth_skipn_add in Z.
      destruct (cfield_number _ _ N J) as (NF & LF & LL).
      rewrite (Nat.mul_comm _ 11) in Z. fold (cfield (nth (i + k / 6) c_lines []) (k mod 6)) in Z.
      unfold cpp_read_int_field in X.
      replace (length (nth (i + k / 6) c_lines []) <? 11 * (k mod 6) + 11)%nat with false in X by (symmetry; apply Nat.ltb_ge; exact LL).
      destruct (int_both _ _ _ NF Z X) as [-> I32].
      now destruct (int_as_float ro _ z v (proj1 SR) LF NF Z R I32). }
    assert (M : mapM to_int1 vs = Ok (map NInt xs)).
    { clear - Q. induction Q as [|v x vs xs E Q IH]; [reflexivity|]. cbn [mapM map]. rewrite E. cbn [bind]. now rewrite IH. }
    rewrite M in H. now injection H.
  Qed.
End Lines.
