(** Tables of the C++ templates and of the Python code. *)
From Coq Require Import Ascii String ZArith QArith Bool Lia List.
From Coq Require Import Floats.SpecFloat.
From Verif Require Import PyBase ProofPyBase PyFloat ProofFloat ModelFortran ModelRecords ModelTape
  SpecFields ProofFields SpecFloat ProofFloatText ProofAccept SpecTape ProofTapeWrite ProofRecords ModelCpp ModelCppTab SpecCpp SpecCppTab ProofCpp
  ProofCppWrite ProofCppVec.
Import ListNotations.
Open Scope Z_scope.

(** ** Reading *)

Lemma vec_rel {A} (rd : str -> nat -> cpp A) (R : num -> A -> Prop) ro lines : r_width ro = 11%nat ->
  forall fuel num ofs vals ofs', 0 < num -> (Z.to_nat num <= fuel)%nat ->
  (forall k v, (k < Z.to_nat num)%nat -> (ofs + k / 6 < length lines)%nat ->
     read_fort_float ro (field_no lines ofs k) = Ok v -> exists a, rd (nth (ofs + k / 6) lines []) (k mod 6)%nat = Val a /\ R v a) ->
  read_numbers_loop ro fuel lines num ofs = Ok (vals, ofs') ->
  exists xs, Forall2 R vals xs /\ cpp_read_vec rd (Z.to_nat num) (skipn ofs lines) = Val (xs, skipn ofs' lines).
Proof.
  intros W. induction fuel as [|fuel IH]; intros num ofs vals ofs' P Fu Rd H; [lia|].
  cbn [read_numbers_loop] in H. replace (num <=? 0) with false in H by (symmetry; apply Z.leb_gt; lia).
  destruct (get_line lines ofs) as [l|e] eqn:G; cbn [bind] in H; [|discriminate H].
  assert (G' : nth_error lines ofs = Some l) by (unfold get_line in G; destruct (nth_error lines ofs); congruence).
  destruct (read_fort_floats ro l (Z.to_nat (Z.min 6 num))) as [vs|e] eqn:V; [|cbn [bind] in H; discriminate H]. cbn [bind] in H.
  destruct (read_numbers_loop ro fuel lines (num - 6) (S ofs)) as [[rest o]|e] eqn:L; [|cbn [bind] in H; discriminate H].
  cbn [bind] in H. inversion H; subst vals o. clear H.
  assert (LO : (ofs < length lines)%nat) by (apply nth_error_Some; congruence).
  assert (NL : nth ofs lines [] = l) by (apply nth_error_nth; auto).
  rewrite (skipn_nth _ _ _ G'). cbn [cpp_read_vec].
  set (m := Z.to_nat (Z.min 6 num)) in *.
  replace (Z.to_nat num) with (m + Z.to_nat (num - 6))%nat by (unfold m; lia).
  assert (FV : exists xs, Forall2 R vs xs /\ Forall2 (fun i v => rd l i = Val v) (seq 0 m) xs).
  { unfold read_fort_floats in V. apply mapM_Forall2 in V. rewrite W in V.
    assert (K : forall i v, (i < m)%nat -> read_fort_float ro (slice (i * 11) (i * 11 + 11) l) = Ok v -> exists a, rd l i = Val a /\ R v a).
    { intros i v Hi Hv. pose proof (Rd i v) as RR. unfold field_no in RR.
      rewrite Nat.div_small, Nat.mod_small, Nat.add_0_r, NL in RR by (unfold m in Hi; lia). apply RR; auto; unfold m in Hi; lia. }
    assert (K2 : forall a n ws, (a + n <= m)%nat ->
        Forall2 (fun x y => read_fort_float ro (slice (x * 11) (x * 11 + 11) l) = Ok y) (seq a n) ws ->
        exists xs, Forall2 R ws xs /\ Forall2 (fun i v => rd l i = Val v) (seq a n) xs).
    { intros a n; revert a; induction n as [|n IHn]; intros a ws Ha Hf; cbn [seq] in *; inversion Hf as [|? w ? ws' Hw Hf']; subst.
      - exists []. split; constructor.
      - destruct (K a w ltac:(lia) Hw) as (x & X1 & X2). destruct (IHn (S a) ws' ltac:(lia) Hf') as (xs & X3 & X4).
        exists (x :: xs). split; constructor; auto. }
    apply K2; auto. }
  destruct FV as (xs & F1 & F2).
  rewrite (vec_line rd l m (Z.to_nat (num - 6)) 0 (skipn (S ofs) lines) xs) by (auto; unfold m; lia).
  destruct (Z.leb_spec num 6) as [S6|B6].
  - replace (Z.to_nat (num - 6)) with 0%nat by lia.
    assert (E : rest = [] /\ ofs' = S ofs).
    { destruct fuel as [|fuel']; cbn [read_numbers_loop] in L.
      + inversion L; auto.
      + replace (num - 6 <=? 0) with true in L by (symmetry; apply Z.leb_le; lia). inversion L; auto. }
    destruct E as [-> ->]. exists xs. rewrite app_nil_r. auto.
  - assert (E : exists ys, Forall2 R rest ys /\ cpp_read_vec rd (Z.to_nat (num - 6)) (skipn (S ofs) lines) = Val (ys, skipn ofs' lines)).
    { apply (IH (num - 6) (S ofs) rest ofs'); auto; try lia. intros k v Hk Ho Hv.
      pose proof (Rd (1 * 6 + k)%nat v) as RR. unfold field_no in *.
      rewrite Nat.div_add_l in RR by lia. rewrite (Nat.add_comm (1 * 6) k), Nat.mod_add in RR by lia.
      replace (ofs + (1 + k / 6))%nat with (S ofs + k / 6)%nat in RR by lia. apply RR; auto; lia. }
    destruct E as (ys & Y1 & E). exists (xs ++ ys). split; [now apply Forall2_app|].
    rewrite E. destruct (Z.to_nat (num - 6)) eqn:Z6; [lia|]. reflexivity.
Qed.

(** real numbers with their text *)
Lemma endf_vector ro (lines : list str) num ofs vals ofs' : r_width ro = 11%nat -> 0 < num ->
  (forall l : str, In l lines -> (66 <= length l)%nat) ->
  (forall k, (k < Z.to_nat num)%nat -> number_field (field_no lines ofs k) /\ field_in_range (r_spaces ro) (field_no lines ofs k)) ->
  read_endf_numbers ro false lines num ofs = Ok (vals, ofs') ->
  exists xs, Forall2 same_number vals xs /\
  cpp_read_vec (cpp_read_endf_field (r_spaces ro) (r_preserve ro)) (Z.to_nat num) (skipn ofs lines) = Val (xs, skipn ofs' lines).
Proof.
  intros W P LL R H. unfold read_endf_numbers in H.
  destruct (read_numbers_loop ro (Z.to_nat num) lines num ofs) as [[vs o]|e] eqn:L; [|cbn [bind] in H; discriminate H].
  cbn [bind] in H. inversion H; subst vs o. clear H.
  apply (vec_rel _ _ ro lines W (Z.to_nat num)) with (ofs := ofs); auto. intros k v Hk Ho Hv.
  destruct (R k Hk) as [N I]. unfold cpp_read_endf_field, cpp_read_float_field, cfield.
  assert (B : (k mod 6 < 6)%nat) by (apply Nat.mod_upper_bound; lia).
  pose proof (LL (nth (ofs + k / 6) lines []) (nth_In _ _ Ho)) as L66.
  assert (LE : (11 * (k mod 6) + 11 <= length (nth (ofs + k / 6) lines []))%nat) by (eapply Nat.le_trans; [|exact L66]; lia).
  rewrite (proj2 (Nat.ltb_ge _ _) LE).
  rewrite (Nat.mul_comm 11 (k mod 6)). unfold field_no in *.
  set (s := slice (k mod 6 * 11) (k mod 6 * 11 + 11) (nth (ofs + k / 6) lines [])) in *.
  destruct (float_field_same ro _ v W (length_slice11 _ _) N Hv) as (f & -> & C). fold s in C |- *.
  assert (E : endfstr2float (r_spaces ro) s = Val f).
  { destruct C as [(_ & -> & E)|(t & neg & m & e & T & F & -> & E & _)]; auto. exact (E (I t neg m e T F)). }
  rewrite E. cbn [cbind]. eexists. split; [reflexivity|].
  unfold same_number. destruct (r_preserve ro) eqn:Pr; cbn [andb ef_value ef_orig].
  - destruct (is_blank s) eqn:Bl; cbn [negb]; split; auto.
    apply ws_only_spaces; auto. apply blank_all_ws. now apply blank_iff.
  - split; auto. intros c [].
Qed.

Lemma split_evens {A} n : forall (l : list A), length l = (2 * n)%nat -> split_pairs n l = Val (evens l, odds l).
Proof.
  induction n as [|n IH]; intros l L.
  - destruct l; [reflexivity|cbn in L; lia].
  - destruct l as [|x [|y l]]; cbn [length] in L; try lia. cbn [split_pairs evens odds].
    rewrite IH by lia. reflexivity.
Qed.
Lemma evens_odds_map {A B} (f : A -> B) l : evens (map f l) = map f (evens l) /\ odds (map f l) = map f (odds l).
Proof.
  induction l as [|x l [E O]]; [split; reflexivity|]. cbn [map evens odds]. rewrite E, O. split; reflexivity.
Qed.
Lemma evens_odds_rel {A B} (R : A -> B -> Prop) l m : Forall2 R l m -> Forall2 R (evens l) (evens m) /\ Forall2 R (odds l) (odds m).
Proof.
  induction 1 as [|x y l m H F [E O]]; [split; constructor|]. cbn [evens odds]. split; auto.
Qed.

(** the lines that are taken, and the check of their control numbers *)
Definition cmatch (c : ctrl) (l : str) : Prop := cpp_control c l.
Lemma read_line_checked v c l r : (v = true -> cpp_control c l) -> cpp_read_line v c (l :: r) = Val (l, r).
Proof.
  intros H. unfold cpp_read_line. destruct v; [|reflexivity]. destruct (H eq_refl) as (-> & -> & ->). cbn [cbind].
  rewrite !Z.eqb_refl. reflexivity.
Qed.
Lemma read_line_inv c ls l r : cpp_read_line true c ls = Val (l, r) -> ls = l :: r /\ cpp_control c l.
Proof.
  unfold cpp_read_line, cpp_control. destruct ls as [|l' r']; [discriminate|].
  destruct (cpp_read_mat_number l') as [a| |] eqn:Q1; try discriminate. cbn [cbind].
  destruct (cpp_read_mf_number l') as [b| |] eqn:Q2; try discriminate. cbn [cbind].
  destruct (cpp_read_mt_number l') as [d| |] eqn:Q3; try discriminate. cbn [cbind].
  destruct ((a =? MAT c) && (b =? MF c) && (d =? MT c)) eqn:E; [|discriminate]. intros H; inversion H; subst.
  apply andb_true_iff in E as [E E3]. apply andb_true_iff in E as [E1 E2]. apply Z.eqb_eq in E1, E2, E3. subst a b d. repeat split; auto.
Qed.
Lemma vec_loop_taken {A} (rd : str -> nat -> cpp A) n : forall line j lines vs rest,
  cpp_read_vec_loop rd n line j lines = Val (vs, rest) ->
  exists used, lines = used ++ rest /\ length vs = n /\
    forall v c, (v = true -> Forall (cpp_control c) used) -> cpp_vec_loop v c rd n line j lines = Val (vs, rest).
Proof.
  induction n as [|n IH]; intros line j lines vs rest H; cbn [cpp_read_vec_loop] in H.
  { inversion H; subst. exists []. auto. }
  destruct (rd line j) as [x| |] eqn:E; try discriminate. cbn [cbind] in H.
  destruct ((5 <? S j)%nat && (0 <? n)%nat) eqn:B.
  - destruct lines as [|l r]; [discriminate|]. cbn [cbind] in H.
    destruct (cpp_read_vec_loop rd n l 0 r) as [[ws rs]| |] eqn:Q; try discriminate. cbn [cbind] in H.
    inversion H; subst. destruct (IH _ _ _ _ _ Q) as (used & -> & L & U). exists (l :: used). split; [reflexivity|].
    split; [cbn; lia|]. intros v c F. cbn [cpp_vec_loop]. rewrite E. cbn [cbind]. rewrite B.
    rewrite read_line_checked by (intros Hv; specialize (F Hv); now inversion F). cbn [cbind].
    rewrite U by (intros Hv; specialize (F Hv); now inversion F). reflexivity.
  - cbn [cbind] in H. destruct (cpp_read_vec_loop rd n line (S j) lines) as [[ws rs]| |] eqn:Q; try discriminate. cbn [cbind] in H.
    inversion H; subst. destruct (IH _ _ _ _ _ Q) as (used & -> & L & U). exists used. split; [reflexivity|].
    split; [cbn; lia|]. intros v c F. cbn [cpp_vec_loop]. rewrite E. cbn [cbind]. rewrite B. cbn [cbind].
    rewrite U by auto. reflexivity.
Qed.
Lemma vec_taken {A} (rd : str -> nat -> cpp A) n lines vs rest : cpp_read_vec rd n lines = Val (vs, rest) ->
  exists used, lines = used ++ rest /\ length vs = n /\
    forall v c, (v = true -> Forall (cpp_control c) used) -> cpp_vec v c rd n lines = Val (vs, rest).
Proof.
  unfold cpp_read_vec. destruct lines as [|l r]; [discriminate|]. intros H. apply vec_loop_taken in H as (used & -> & L & U).
  exists (l :: used). split; [reflexivity|]. split; auto. intros v c F. unfold cpp_vec.
  rewrite read_line_checked by (intros Hv; specialize (F Hv); now inversion F). cbn [cbind].
  apply U. intros Hv; specialize (F Hv); now inversion F.
Qed.
Lemma checked_loop {A} (rd : str -> nat -> cpp A) c n : forall line j lines vs rest,
  cpp_vec_loop true c rd n line j lines = Val (vs, rest) ->
  cpp_read_vec_loop rd n line j lines = Val (vs, rest) /\ exists used, lines = used ++ rest /\ Forall (cpp_control c) used.
Proof.
  induction n as [|n IH]; intros line j lines vs rest H; cbn [cpp_vec_loop cpp_read_vec_loop] in *.
  { inversion H; subst. split; auto. exists []. split; [reflexivity|constructor]. }
  destruct (rd line j) as [x| |] eqn:E; try discriminate. cbn [cbind] in *.
  destruct ((5 <? S j)%nat && (0 <? n)%nat) eqn:B.
  - destruct (cpp_read_line true c lines) as [[l r]| |] eqn:RL; try discriminate. cbn [cbind] in H.
    apply read_line_inv in RL as [-> C]. cbn [cbind].
    destruct (cpp_vec_loop true c rd n l 0 r) as [[ws rs]| |] eqn:Q; try discriminate. cbn [cbind] in H.
    inversion H; subst. destruct (IH _ _ _ _ _ Q) as (-> & used & -> & F). split; [reflexivity|]. exists (l :: used). auto.
  - cbn [cbind] in *. destruct (cpp_vec_loop true c rd n line (S j) lines) as [[ws rs]| |] eqn:Q; try discriminate. cbn [cbind] in H.
    inversion H; subst. destruct (IH _ _ _ _ _ Q) as (-> & used & -> & F). split; [reflexivity|]. exists used. auto.
Qed.
(** a list that is read with the check comes from lines with the right control numbers, and is
    the list that is read without *)
Lemma checked_vec {A} (rd : str -> nat -> cpp A) c n lines vs rest : cpp_vec true c rd n lines = Val (vs, rest) ->
  cpp_vec false c rd n lines = Val (vs, rest) /\ exists used, lines = used ++ rest /\ used <> [] /\ Forall (cpp_control c) used.
Proof.
  unfold cpp_vec. destruct (cpp_read_line true c lines) as [[l r]| |] eqn:RL; try discriminate. cbn [cbind].
  apply read_line_inv in RL as [-> C]. intros H. apply checked_loop in H as (H & used & -> & F).
  cbn [cpp_read_line cbind]. split.
  - apply vec_loop_taken in H as (u & E & _ & U). apply U. discriminate.
  - exists (l :: used). split; [reflexivity|]. split; [discriminate|auto].
Qed.

Lemma skipn_split {A} (lines used : list A) a b : skipn a lines = used ++ skipn b lines -> used = firstn (length used) (skipn a lines).
Proof. intros ->. now rewrite firstn_app, Nat.sub_diag, firstn_all, firstn_O, app_nil_r. Qed.

Lemma used_control c (lines used : list str) a b : (a <= b <= length lines)%nat -> skipn a lines = used ++ skipn b lines ->
  (forall i, (a <= i < b)%nat -> cpp_control c (nth i lines [])) -> Forall (cpp_control c) used.
Proof.
  intros L E H. apply Forall_forall. intros x I. apply (In_nth _ _ []) in I as (i & Li & <-).
  assert (LU : length used = (b - a)%nat).
  { assert (Q : length (skipn a lines) = length (used ++ skipn b lines)) by now rewrite E.
    rewrite app_length, !skipn_length in Q. lia. }
  specialize (H (a + i)%nat ltac:(change (i < length used)%nat in Li; lia)).
  assert (X : nth i (skipn a lines) [] = nth (a + i) lines []).
  { clear. revert lines. induction a as [|a IH]; intros [|y l]; cbn [skipn nth plus]; auto. now destruct i. }
  rewrite <- X, E, app_nth1 in H by auto. exact H.
Qed.

Lemma numbers_offset ro lines b : forall num ofs vals ofs', 0 < num -> (ofs <= length lines)%nat ->
  read_endf_numbers ro b lines num ofs = Ok (vals, ofs') -> (ofs <= ofs' <= length lines)%nat.
Proof.
  assert (K : forall fuel num ofs vals ofs', (ofs <= length lines)%nat -> read_numbers_loop ro fuel lines num ofs = Ok (vals, ofs') -> (ofs <= ofs' <= length lines)%nat).
  { induction fuel as [|f IH]; intros num ofs vals ofs' L H; cbn [read_numbers_loop] in H; [inversion H; subst; lia|].
    destruct (num <=? 0); [inversion H; subst; lia|].
    destruct (get_line lines ofs) as [l|e] eqn:G; cbn [bind] in H; [|discriminate H].
    assert (G' : nth_error lines ofs <> None) by (unfold get_line in G; destruct (nth_error lines ofs); congruence).
    apply nth_error_Some in G'.
    destruct (read_fort_floats ro l (Z.to_nat (Z.min 6 num))) as [vs|e]; [|cbn [bind] in H; discriminate H]. cbn [bind] in H.
    destruct (read_numbers_loop ro f lines (num - 6) (S ofs)) as [[rest o]|e] eqn:Q; [|cbn [bind] in H; discriminate H].
    cbn [bind] in H. inversion H; subst. apply IH in Q; lia. }
  intros num ofs vals ofs' P L H. unfold read_endf_numbers in H.
  destruct (read_numbers_loop ro (Z.to_nat num) lines num ofs) as [[vs o]|e] eqn:Q; [|cbn [bind] in H; discriminate H].
  apply K in Q; auto. cbn [bind] in H. destruct b; [|inversion H; subst; auto].
  destruct (mapM to_int1 vs) as [zs|e]; [inversion H; subst; auto|]. destruct e; inversion H; subst; auto.
Qed.

(** a TAB2 body *)
Lemma tab2_body_read ro (lines : list str) nr ofs ivals ofs' v c : r_width ro = 11%nat -> 0 < nr -> (ofs <= length lines)%nat ->
  (forall l : str, In l lines -> (66 <= length l)%nat) ->
  (forall k, (k < Z.to_nat (2 * nr))%nat -> number_field (field_no lines ofs k) /\ exists z, int32 z /\ read_fort_int (field_no lines ofs k) = Ok z) ->
  (v = true -> forall i, (ofs <= i < ofs')%nat -> cpp_control c (nth i lines [])) ->
  read_endf_numbers ro true lines (2 * nr) ofs = Ok (ivals, ofs') ->
  exists nbt int, evens ivals = map NInt nbt /\ odds ivals = map NInt int /\
  cpp_read_tab2_body v c (Z.to_nat nr) (skipn ofs lines) = Val ((nbt, int), skipn ofs' lines).
Proof.
  intros W P LO LL R C H. pose proof (numbers_offset ro lines true (2 * nr) ofs ivals ofs' ltac:(lia) LO H) as OO.
  destruct (int_vector ro lines (2 * nr) ofs ivals ofs' W ltac:(lia) LL R H) as (ns & -> & E).
  exists (evens ns), (odds ns). destruct (evens_odds_map NInt ns) as [-> ->]. split; [reflexivity|]. split; [reflexivity|].
  destruct (vec_taken _ _ _ _ _ E) as (used & U1 & L & U2).
  unfold cpp_read_tab2_body. replace (2 * Z.to_nat nr)%nat with (Z.to_nat (2 * nr)) by lia.
  rewrite U2 by (intros Hv; eapply used_control; eauto). cbn [cbind].
  rewrite split_evens by lia. reflexivity.
Qed.
Lemma tab1_body_read ro (lines : list str) nr np ofs nbt int xs ys ofs' v c : r_width ro = 11%nat -> 0 < nr -> 0 < np -> (ofs <= length lines)%nat ->
  (forall l : str, In l lines -> (66 <= length l)%nat) ->
  (forall k, (k < Z.to_nat (2 * nr))%nat -> number_field (field_no lines ofs k) /\ exists z, int32 z /\ read_fort_int (field_no lines ofs k) = Ok z) ->
  (forall k, (k < Z.to_nat (2 * np))%nat ->
     let s := field_no lines (ofs + (Z.to_nat (2 * nr) + 5) / 6) k in number_field s /\ field_in_range (r_spaces ro) s) ->
  (v = true -> forall i, (ofs <= i < ofs')%nat -> cpp_control c (nth i lines [])) ->
  read_tab1_body_lines ro lines ofs nr np = Ok ((nbt, int, xs, ys), ofs') ->
  exists nbt' int' xs' ys', nbt = map NInt nbt' /\ int = map NInt int' /\ Forall2 same_number xs xs' /\ Forall2 same_number ys ys' /\
  cpp_read_tab1_body (r_spaces ro) (r_preserve ro) v c (Z.to_nat nr) (Z.to_nat np) (skipn ofs lines) = Val ((nbt', int'), (xs', ys'), skipn ofs' lines).
Proof.
  intros W P1 P2 LO LL R1 R2 C H. unfold read_tab1_body_lines in H.
  destruct (read_endf_numbers ro true lines (2 * nr) ofs) as [[iv o1]|e] eqn:H1; [|cbn [bind] in H; discriminate H]. cbn [bind] in H.
  destruct (read_endf_numbers ro false lines (2 * np) o1) as [[fv o2]|e] eqn:H2; [|cbn [bind] in H; discriminate H]. cbn [bind] in H.
  inversion H; subst. clear H.
  pose proof (numbers_offset ro lines true (2 * nr) ofs iv o1 ltac:(lia) LO H1) as OO1.
  pose proof (numbers_offset ro lines false (2 * np) o1 fv ofs' ltac:(lia) ltac:(lia) H2) as OO2.
  assert (O1 : o1 = (ofs + (Z.to_nat (2 * nr) + 5) / 6)%nat).
  { assert (K : forall fuel num ofs vals ofs', (Z.to_nat num <= fuel)%nat -> read_numbers_loop ro fuel lines num ofs = Ok (vals, ofs') ->
               ofs' = (ofs + (Z.to_nat num + 5) / 6)%nat).
    { clear. induction fuel as [|f IH]; intros num ofs vals ofs' Fu H; cbn [read_numbers_loop] in H.
      { inversion H; subst. replace (Z.to_nat num) with 0%nat by lia. cbn. lia. }
      destruct (Z.leb_spec num 0) as [N|N]; [inversion H; subst; replace (Z.to_nat num) with 0%nat by lia; cbn; lia|].
      destruct (get_line lines ofs) as [l|e] eqn:G; cbn [bind] in H; [|discriminate H].
      destruct (read_fort_floats ro l (Z.to_nat (Z.min 6 num))) as [vs|e]; [|cbn [bind] in H; discriminate H]. cbn [bind] in H.
      destruct (read_numbers_loop ro f lines (num - 6) (S ofs)) as [[rest o]|e] eqn:Q; [|cbn [bind] in H; discriminate H].
      cbn [bind] in H. inversion H; subst. apply IH in Q; [|lia]. rewrite Q.
      destruct (Z.leb_spec num 6) as [N6|N6].
      - replace (Z.to_nat (num - 6)) with 0%nat by lia. change ((0 + 5) / 6)%nat with 0%nat.
        rewrite <- (Nat.div_unique (Z.to_nat num + 5) 6 1 (Z.to_nat num - 1)) by lia. lia.
      - replace (Z.to_nat num + 5)%nat with (1 * 6 + (Z.to_nat (num - 6) + 5))%nat by lia.
        rewrite Nat.div_add_l by lia. lia. }
    unfold read_endf_numbers in H1.
    destruct (read_numbers_loop ro (Z.to_nat (2 * nr)) lines (2 * nr) ofs) as [[vs o]|e] eqn:Q; [|cbn [bind] in H1; discriminate H1].
    apply K in Q; [|lia]. cbn [bind] in H1. destruct (mapM to_int1 vs) as [zs|e]; [inversion H1; subst; auto|]. destruct e; inversion H1; subst; auto. }
  destruct (int_vector ro lines (2 * nr) ofs iv o1 W ltac:(lia) LL R1 H1) as (ns & -> & E).
  rewrite <- O1 in R2. destruct (endf_vector ro lines (2 * np) o1 fv ofs' W ltac:(lia) LL R2 H2) as (fs & F & G).
  destruct (evens_odds_rel _ _ _ F) as [F1 F2].
  exists (evens ns), (odds ns), (evens fs), (odds fs). destruct (evens_odds_map NInt ns) as [-> ->].
  repeat (split; [auto|]).
  destruct (vec_taken _ _ _ _ _ E) as (used & U1 & L & U2).
  destruct (vec_taken _ _ _ _ _ G) as (used' & U1' & L' & U2').
  unfold cpp_read_tab1_body.
  replace (2 * Z.to_nat nr)%nat with (Z.to_nat (2 * nr)) by lia. replace (2 * Z.to_nat np)%nat with (Z.to_nat (2 * np)) by lia.
  rewrite U2 by (intros Hv; eapply used_control; [|exact U1|]; [lia|]; intros i Hi; apply C; auto; lia). cbn [cbind].
  rewrite split_evens by lia. cbn [cbind].
  rewrite U2' by (intros Hv; eapply used_control; [|exact U1'|]; [lia|]; intros i Hi; apply C; auto; lia). cbn [cbind].
  rewrite split_evens by lia. reflexivity.
Qed.

(** ** Writing *)

Section Write.
  Context {A : Type}.
  Variable o : cwopts.
  Variable c : ctrl.
  Variable wr : str -> nat -> A -> cpp str.
  Variable tx : A -> str.
  Hypothesis CF : ctrl_fits c.

  Definition tl (k : Z) : str := write_ctrl c ++ lnum o (Z.rem k 99999 + 1) ++ [newline].
  Fixpoint tab_text (k : Z) (ls : list str) : str :=
    match ls with [] => [] | l :: r => (l ++ tl k) ++ tab_text (k + 1) r end.
  Fixpoint flat (ps : list (A * A)) : list A :=
    match ps with [] => [] | (x, y) :: r => x :: y :: flat r end.
  Let prep := fun k => cpp_prepare_line (MAT c) (MF c) (MT c) k o.

  Lemma put_field (dn : list str) r j x : length (concat dn) = (11 * j)%nat -> (11 * j + 11 <= 66)%nat ->
    length (tx x) = 11%nat -> (forall l i, wr l i x = Val (c_replace l (i * 11) 11 (tx x))) ->
    wr (concat dn ++ spaces (66 - 11 * j) ++ r) j x = Val (concat (dn ++ [tx x]) ++ spaces (66 - 11 * S j) ++ r).
  Proof.
    intros L B T H. rewrite H. f_equal.
    replace (66 - 11 * j)%nat with (11 + (66 - 11 * S j))%nat by lia. rewrite spaces_app, <- app_assoc.
    rewrite (c_replace_at (concat dn) (spaces 11)) by (auto; lia).
    rewrite concat_app. cbn [concat]. now rewrite app_nil_r, <- app_assoc.
  Qed.

  Lemma pairs_text ps : forall (dn : list str) j k, length dn = j -> Forall (fun t : str => length t = 11%nat) dn -> (j <= 6)%nat -> Nat.Even j ->
    (ps <> [] -> (j < 6)%nat) -> (ps <> [] \/ dn <> []) ->
    Forall (fun x => length (tx x) = 11%nat /\ forall l i, wr l i x = Val (c_replace l (i * 11) 11 (tx x))) (flat ps) ->
    let ls := array_lines 11 (dn ++ map tx (flat ps)) in
    write_pairs_loop wr prep ps (concat dn ++ spaces (66 - 11 * j) ++ tl k) j (k + 1) = Val (tab_text k ls, k + Z.of_nat (length ls)).
  Proof.
    induction ps as [|[x y] r IH]; intros dn j k L F B Ev N N2 P; cbn [write_pairs_loop flat map].
    - rewrite app_nil_r. unfold array_lines. destruct N2 as [N2|N2]; [contradiction|].
      rewrite chunks6_small by (auto; lia). cbn [map tab_text length].
      unfold ljust. rewrite app_nil_r, <- app_assoc. replace (length (concat dn)) with (11 * j)%nat; [reflexivity|].
      rewrite (length_concat_widths 11 dn F), L. lia.
    - assert (B' : (j <= 4)%nat) by (destruct Ev as [q Q]; specialize (N ltac:(discriminate)); lia).
      inversion P as [|? ? [X1 X2] P']; subst x0. inversion P' as [|? ? [Y1 Y2] P'']; subst x0.
      assert (LC : length (concat dn) = (11 * j)%nat) by (rewrite (length_concat_widths 11 dn F), L; lia).
      rewrite put_field by (auto; lia). cbn [cbind].
      assert (LC2 : length (concat (dn ++ [tx x])) = (11 * S j)%nat).
      { rewrite concat_app, app_length, LC. cbn. rewrite app_nil_r. lia. }
      rewrite put_field by (auto; lia). cbn [cbind].
      replace (dn ++ tx x :: tx y :: map tx (flat r)) with (((dn ++ [tx x]) ++ [tx y]) ++ map tx (flat r)) by (now rewrite <- !app_assoc).
      assert (F2 : Forall (fun t => length t = 11%nat) ((dn ++ [tx x]) ++ [tx y])).
      { rewrite !Forall_app. repeat split; auto. }
      set (dn2 := (dn ++ [tx x]) ++ [tx y]) in *.
      assert (L2 : length dn2 = S (S j)) by (unfold dn2; rewrite !app_length; cbn; lia).
      assert (Ev2 : Nat.Even (S (S j))) by (destruct Ev as [q Q]; exists (S q); lia).
      assert (N3 : dn2 <> []) by (intros Z; rewrite Z in L2; discriminate).
      destruct (5 <? S (S j))%nat eqn:J; cbn [andb].
      + apply Nat.ltb_lt in J. assert (j = 4%nat) as -> by lia. clear J.
        destruct r as [|p r].
        * cbn [length]. change (0 <? 0)%nat with false. cbn [write_pairs_loop]. 
          pose proof (IH dn2 6%nat k L2 F2 ltac:(lia) Ev2 ltac:(congruence) ltac:(auto) P'') as Q.
          exact Q.
        * change (0 <? length (p :: r))%nat with true. cbn iota. unfold prep at 1. rewrite prepared_line by auto. cbn [fst snd].
          change (spaces 66 ++ write_ctrl c ++ lnum o (Z.rem (k + 1) 99999 + 1) ++ [newline])
            with (concat (@nil str) ++ spaces (66 - 11 * 0) ++ tl (k + 1)).
          rewrite (IH [] 0%nat (k + 1)); auto; try lia; [|now exists 0%nat|left; discriminate].
          cbn [cbind app]. unfold array_lines at 3 4. rewrite chunks6_app by auto. cbn [map].
          fold (array_lines 11 (map tx (flat (p :: r)))). cbn [tab_text length].
          rewrite ljust_id by (rewrite (length_concat_widths 11 dn2 F2), L2; lia).
          f_equal. f_equal. lia.
      + apply Nat.ltb_ge in J. rewrite (IH dn2 (S (S j)) k); auto; try lia.
  Qed.
End Write.

Lemma flat_combine {A} (xs : list A) : forall ys, flat (combine xs ys) = interleave xs ys.
Proof. induction xs as [|x xs IH]; intros [|y ys]; cbn; auto. now rewrite IH. Qed.

Lemma finished_text o wo c : cw_linenum o = w_linenum wo -> forall ls n, 0 <= n ->
  tab_text o c n ls = text_of (finished wo c n ls).
Proof.
  intros E. unfold finished, text_of. rewrite <- E. destruct (cw_linenum o) eqn:B.
  - induction ls as [|l r IH]; intros n P; [reflexivity|]. cbn [tab_text map number_lines concat].
    rewrite IH by lia. f_equal. unfold tl, lnum. rewrite B. rewrite Z.rem_mod_nonneg by lia. now rewrite <- !app_assoc.
  - induction ls as [|l r IH]; intros n P; [reflexivity|]. cbn [tab_text map concat].
    rewrite IH by lia. f_equal. unfold tl, lnum. rewrite B. now rewrite <- !app_assoc.
Qed.

Lemma pairs_same {A} o wo c (wr : str -> nat -> A -> cpp str) tx xs ys n : ctrl_fits c -> cw_linenum o = w_linenum wo -> 0 <= n ->
  length xs = length ys -> xs <> [] ->
  Forall (fun x => length (tx x) = 11%nat /\ forall l i, wr l i x = Val (c_replace l (i * 11) 11 (tx x))) (interleave xs ys) ->
  let ls := array_lines 11 (map tx (interleave xs ys)) in
  write_pairs wr (fun k => cpp_prepare_line (MAT c) (MF c) (MT c) k o) xs ys n = Val (text_of (finished wo c n ls), n + Z.of_nat (length ls)).
Proof.
  intros CF E P L N F ls. unfold write_pairs. rewrite L, Nat.eqb_refl. rewrite prepared_line by auto.
  change (spaces 66 ++ write_ctrl c ++ lnum o (Z.rem n 99999 + 1) ++ [newline])
    with (concat (@nil str) ++ spaces (66 - 11 * 0) ++ tl o c n).
  rewrite <- flat_combine in *.
  assert (NC : combine xs ys <> []) by (destruct xs, ys; try discriminate; contradiction).
  rewrite (pairs_text o c wr tx CF (combine xs ys) [] 0 n); auto; try lia; [|now exists 0%nat].
  cbn [app]. rewrite flat_combine in *. rewrite (finished_text o wo c E) by auto. reflexivity.
Qed.

Lemma tab2_body_write o wo c nbt int n ls : same_options o wo -> ctrl_fits c -> 0 <= n -> nbt <> [] ->
  length nbt = length int -> Forall int32 nbt -> Forall int32 int ->
  write_endf_ints wo (interleave nbt int) = Ok ls ->
  cpp_write_tab2_body o c nbt int n = Val (text_of (finished wo c n ls), n + Z.of_nat (length ls)).
Proof.
  intros (_ & _ & _ & _ & LN & W) CF P N L F1 F2 H.
  assert (FI : Forall (fits 11) (interleave nbt int)).
  { apply interleave_Forall; eapply Forall_impl; try eassumption; intros z I; apply in_field_fits; try lia;
      unfold int32 in I; unfold in_field; cbn; lia. }
  rewrite write_ints_array in H; [|apply interleave_nonnil; auto|rewrite W; auto]. rewrite W in H. inversion H; subst ls.
  unfold cpp_write_tab2_body. apply pairs_same; auto.
  eapply Forall_impl; [|exact FI]. intros z I. split; [now apply length_int_field|]. intros l i. reflexivity.
Qed.

Lemma floats_text wo vals fs : w_width wo = 11%nat -> vals <> [] ->
  Forall2 (fun v t => float2fortstr wo v = Ok t /\ length t = 11%nat) vals fs ->
  write_endf_floats wo vals = Ok (array_lines 11 fs).
Proof.
  intros W N X.
  assert (W1 : widths 11 fs).
  { clear N. induction X as [|v t vs ts [_ T] X IH]; constructor; auto. }
  assert (M : mapM (write_fort_floats wo) (chunks6 (length vals) vals)
              = Ok (map (@concat ascii) (chunks6 (length fs) fs))).
  { assert (X' : Forall2 (fun v t => float2fortstr wo v = Ok t) vals fs) by (clear - X; induction X as [|? ? ? ? [? ?]]; constructor; auto).
    clear N W1 X. revert fs X'. induction vals as [|l N L|l r L N IH] using chunk_ind; intros fs X.
    - inversion X; subst. reflexivity.
    - pose proof (Forall2_length X) as LX.
      rewrite (chunks6_small l), (chunks6_small fs); auto; try lia.
      2:{ destruct fs; [destruct l; [contradiction|discriminate]|discriminate]. }
      cbn [mapM map]. unfold write_fort_floats at 1. rewrite (Forall2_mapM _ _ _ X). reflexivity.
    - apply Forall2_app_inv_l in X as (f1 & f2 & X1 & X2 & ->).
      pose proof (Forall2_length X1) as LX.
      rewrite !chunks6_app by lia. cbn [mapM map]. unfold write_fort_floats at 1.
      rewrite (Forall2_mapM _ _ _ X1). cbn [bind]. rewrite (IH f2 X2). reflexivity. }
  unfold write_endf_floats. rewrite M, W. cbn [bind]. apply ljust_last_chunks; auto.
  destruct fs; [inversion X; subst; contradiction|discriminate].
Qed.

(** the text of a number, or nothing if there is none *)
Definition text_or (o : cwopts) (preserve : bool) (e : endf_float_cpp) : str :=
  match cpp_endf_text o preserve e with Val t => t | _ => [] end.

Lemma tab1_body_write o preserve wo c nbt int xs ys xs' ys' n ls : same_options o wo -> ctrl_fits c -> 0 <= n -> nbt <> [] -> xs <> [] ->
  Forall int32 nbt -> Forall int32 int -> Forall2 (same_text o preserve wo) xs xs' -> Forall2 (same_text o preserve wo) ys ys' ->
  write_tab1_body_lines wo nbt int xs ys = Ok ls ->
  cpp_write_tab1_body o preserve c nbt int xs' ys' n = Val (text_of (finished wo c n ls), n + Z.of_nat (length ls)).
Proof.
  intros SO CF P N1 N2 F1 F2 X Y H. unfold write_tab1_body_lines in H.
  destruct (Nat.eqb (length nbt) (length int)) eqn:L1; cbn [negb] in H; [|discriminate H]. apply Nat.eqb_eq in L1.
  destruct (Nat.eqb (length xs) (length ys)) eqn:L2; cbn [negb] in H; [|discriminate H]. apply Nat.eqb_eq in L2.
  destruct (write_endf_ints wo (interleave nbt int)) as [l1|e] eqn:W1; [|cbn [bind] in H; discriminate H]. cbn [bind] in H.
  destruct (write_endf_floats wo (interleave xs ys)) as [l2|e] eqn:W2; [|cbn [bind] in H; discriminate H]. cbn [bind] in H.
  inversion H; subst ls. clear H.
  unfold cpp_write_tab1_body. rewrite (tab2_body_write o wo c nbt int n l1) by auto. cbn [cbind].
  pose proof (interleave_Forall2 _ _ _ _ _ X Y) as XY.
  pose proof (Forall2_length X) as LX. pose proof (Forall2_length Y) as LY.
  assert (T : write_endf_floats wo (interleave xs ys) = Ok (array_lines 11 (map (text_or o preserve) (interleave xs' ys')))).
  { apply floats_text; [apply SO|now apply interleave_nonnil|].
    clear - XY. induction XY as [|v e vs es (t & T1 & T2 & T3) F IH]; cbn [map]; constructor; auto.
    unfold text_or. rewrite T3. auto. }
  rewrite T in W2. inversion W2; subst l2. clear W2.
  assert (N2' : xs' <> []) by (intros ->; destruct xs; [contradiction|discriminate]).
  assert (FF : Forall (fun e => length (text_or o preserve e) = 11%nat /\
             forall l i, cpp_write_endf_field o preserve l i e = Val (c_replace l (i * 11) 11 (text_or o preserve e))) (interleave xs' ys')).
  { clear - XY. induction XY as [|v e vs es (t & T1 & T2 & T3) F IH]; constructor; auto.
    unfold text_or, cpp_write_endf_field. rewrite T3. split; auto. intros l i. cbn [cbind]. rewrite T1. reflexivity. }
  rewrite (pairs_same o wo c _ (text_or o preserve) xs' ys' (n + Z.of_nat (length l1))); auto; try lia; [|symmetry; apply SO].
  cbn [cbind]. rewrite app_length. f_equal. f_equal; [|now rewrite Nat2Z.inj_add, Z.add_assoc].
  unfold text_of, finished. destruct (w_linenum wo).
  - clear. revert n. induction l1 as [|l r IH]; intros n; cbn [app map number_lines concat length].
    + now rewrite Z.add_0_r.
    + rewrite <- app_assoc. f_equal. rewrite <- IH. replace (n + 1 + Z.of_nat (length r)) with (n + Z.of_nat (S (length r))) by lia. reflexivity.
  - rewrite !map_app, concat_app. reflexivity.
Qed.
