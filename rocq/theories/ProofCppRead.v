(** Proofs for ThmCppRead.v: the C++ reader of whole files. *)
From Coq Require Import Ascii String ZArith Bool Lia List.
From Coq Require Import Floats.SpecFloat.
From Verif Require Import PyBase PyFloat ModelFortran ModelRecords ModelTape SpecFields SpecFloat SpecTape SpecLibm.
From Verif Require Import ProofPyBase ProofFields ProofFloatText ProofTape ProofTapeWrite ProofTapeParse.
From Verif Require Import ModelCpp ModelCppTab ModelCppRead SpecCpp SpecCppTab SpecCppRead ProofCpp.
Import ListNotations.
Open Scope Z_scope.

(** ** Lines *)

Lemma plain_control ro l mat mf mt : r_width ro = 11%nat -> plain_line l -> carries (r_width ro) l mat mf mt ->
  cpp_control (mkctrl mat mf mt) l /\ substr_int l 70 2 = Val mf /\ substr_int l 72 3 = Val mt.
Proof.
  intros W (L & N & B1 & B2 & _) C.
  pose proof (proj2 (carries_iff ro l mat mf mt) C) as R.
  destruct (control_read_same ro l _ W L N R) as (A1 & A2 & A3).
  split; [split; [exact A1|split; [exact A2|exact A3]]|].
  rewrite W in C. destruct C as (_ & C2 & C3). cbn [Nat.mul Nat.add] in C2, C3.
  assert (SP : slice 66 75 l = slice 66 70 l ++ slice 70 72 l ++ slice 72 75 l).
  { rewrite (slice_split 66 70 75) by lia. f_equal. apply slice_split; lia. }
  rewrite SP in N.
  assert (G : forall a b v, (a + b <= length l)%nat -> number_field (slice a (a + b) l) -> ~ blank (slice a (a + b) l) ->
    ctrl_int (slice a (a + b) l) = Ok v -> (1 <= b <= 9)%nat -> substr_int l a b = Val v).
  { intros a b v Lb Nf NB H Hb. unfold substr_int. replace (length l <? a)%nat with false by (symmetry; apply Nat.ltb_ge; lia).
    assert (I32 : int32 v).
    { apply (fits_int32 b); [lia|]. rewrite <- (slice_len a b l Lb) at 1. apply ctrl_int_fits; auto. rewrite slice_len; lia. }
    unfold ctrl_int in H. destruct (strip (slice a (a + b) l)) as [|c0 t] eqn:E.
    { exfalso. apply NB. apply blank_iff. unfold is_blank. now rewrite E. }
    rewrite <- E, int_of_str_strip in H. destruct (int_of_str (slice a (a + b) l)) as [z|] eqn:Z; [|discriminate].
    inversion H; subst z. rewrite (stoi_int _ v) by auto. now apply c_int_in. }
  split.
  - apply (G 70%nat 2%nat); cbn [Nat.add]; auto; try lia.
    + eapply number_field_sub; [exact N|]. intros x I. rewrite !in_app_iff. tauto.
    + now apply ctrl_int_iff.
  - apply (G 72%nat 3%nat); cbn [Nat.add]; auto; try lia.
    + eapply number_field_sub; [exact N|]. intros x I. rewrite !in_app_iff. tauto.
    + now apply ctrl_int_iff.
Qed.

Lemma last_default {A} (a b : A) l : l <> [] -> last l a = last l b.
Proof. induction l as [|x [|y l] IH]; intros N; [contradiction|reflexivity|]. cbn [last] in *. apply IH. discriminate. Qed.
Lemma plain_drop l : plain_line l -> drop_cr l = Val l.
Proof.
  intros (L & _ & _ & _ & E). unfold drop_cr. destruct l as [|x l]; [cbn in L; lia|].
  rewrite (last_default _ " "%char) by discriminate.
  destruct (chr_eqb _ carriage_return) eqn:X; [|reflexivity]. apply chr_eqb_eq in X. contradiction.
Qed.

Lemma scan_section ro mat mf mt body x emat emf emt rest : r_width ro = 11%nat ->
  Forall plain_line body -> Forall (fun l => carries (r_width ro) l mat mf mt) body ->
  plain_line x -> carries (r_width ro) x emat emf emt -> (emf <> mf \/ emt <> mt) ->
  verbatim_scan false (mkctrl mat mf mt) (body ++ x :: rest) = Val (map with_break body, x :: rest, emf, emt).
Proof.
  intros W P C Px Cx D. induction body as [|l body IH]; cbn [app map verbatim_scan cpp_read_line cbind].
  - rewrite (plain_drop x Px). cbn [cbind]. destruct (plain_control ro x _ _ _ W Px Cx) as (_ & -> & ->). cbn [cbind].
    unfold mkctrl. cbn [MF MT]. destruct (Z.eqb_spec emf mf), (Z.eqb_spec emt mt); cbn [negb orb]; try reflexivity. lia.
  - apply Forall_cons_iff in P as [Pl P]. apply Forall_cons_iff in C as [Cl C].
    rewrite (plain_drop l Pl). cbn [cbind]. destruct (plain_control ro l _ _ _ W Pl Cl) as (_ & -> & ->). cbn [cbind].
    unfold mkctrl at 1 2. cbn [MF MT]. rewrite !Z.eqb_refl. cbn [negb orb]. rewrite (IH P C). reflexivity.
Qed.

(** ** End records *)
Lemma field_number l i : (i < 6)%nat -> number_field (firstn 66 l) -> number_field (slice (11 * i) (11 * i + 11) l).
Proof.
  intros Hi N c I. apply N. rewrite <- (slice_firstn _ _ 66) in I by lia. now apply in_slice in I.
Qed.
Lemma zero_float ro l i : (i < 6)%nat -> r_width ro = 11%nat -> (75 <= length l)%nat -> number_field (firstn 66 l) ->
  field_in_range (r_spaces ro) (slice (11 * i) (11 * i + 11) l) -> real_zero ro i l ->
  exists s, cpp_read_float_field (r_spaces ro) l i = Val (S754_zero s).
Proof.
  intros Hi W L N R (v & E & Z). rewrite W in E.
  replace (i * 11)%nat with (11 * i)%nat in E by lia. replace (S i * 11)%nat with (11 * i + 11)%nat in E by lia.
  pose proof (field_number l i Hi N) as NF.
  unfold cpp_read_float_field, cfield. replace (length l <? 11 * i + 11)%nat with false by (symmetry; apply Nat.ltb_ge; lia).
  assert (L11 : (length (slice (11 * i) (11 * i + 11) l) <= 11)%nat) by (rewrite length_slice; lia).
  destruct (float_field_same ro _ v W L11 NF E) as (f & Ev & [(B & Ef & C)|(t & neg & m & e & T & Ft & Ef & C & _)]).
  - exists false. congruence.
  - assert (F : exists s, f = S754_zero s).
    { rewrite Ev in Z. destruct (r_preserve ro && _); exact Z. }
    destruct F as [s Fs]. exists s. rewrite <- Fs. apply C. eapply R; eauto.
Qed.
Lemma zero_int ro l i : (i < 6)%nat -> r_width ro = 11%nat -> (75 <= length l)%nat -> number_field (firstn 66 l) ->
  int_zero ro i l -> cpp_read_int_field l i = Val 0.
Proof.
  intros Hi W L N Z. apply int_zero_iff in Z. unfold field in Z. rewrite W in Z.
  replace (i * 11)%nat with (11 * i)%nat in Z by lia. replace (S i * 11)%nat with (11 * i + 11)%nat in Z by lia.
  unfold cpp_read_int_field, cfield. replace (length l <? 11 * i + 11)%nat with false by (symmetry; apply Nat.ltb_ge; lia).
  apply int_field_same; [now apply field_number|unfold int32; lia|exact Z].
Qed.

Lemma end_is_fend ro validate l mat : r_width ro = 11%nat -> plain_line l -> plain_end (r_spaces ro) l ->
  end_record ro l mat 0 -> forall mat', (validate = true -> mat' = mat) ->
  cpp_is_fend_record (r_spaces ro) validate mat' l = Val true.
Proof.
  intros W PL (N & R0 & R1) (NB & C & z0 & z1 & i2 & i3 & i4 & i5) mat' V.
  destruct (plain_control ro l _ _ _ W PL C) as ((A1 & A2 & A3) & _).
  assert (L : (75 <= length l)%nat) by apply PL.
  unfold cpp_is_fend_record. rewrite A1. cbn [cbind mkctrl MAT].
  replace (negb (mat' =? mat) && validate) with false.
  2:{ destruct validate; [rewrite (V eq_refl), Z.eqb_refl|rewrite andb_false_r]; reflexivity. }
  rewrite A2, A3. cbn [cbind mkctrl MF MT].
  destruct (zero_float ro l 0 ltac:(lia) W L N R0 z0) as [s0 ->]. cbn [cbind].
  destruct (zero_float ro l 1 ltac:(lia) W L N R1 z1) as [s1 ->]. cbn [cbind].
  rewrite (zero_int ro l 2 ltac:(lia) W L N i2), (zero_int ro l 3 ltac:(lia) W L N i3),
          (zero_int ro l 4 ltac:(lia) W L N i4), (zero_int ro l 5 ltac:(lia) W L N i5). reflexivity.
Qed.
Lemma end_is_mend ro validate l : r_width ro = 11%nat -> plain_line l -> plain_end (r_spaces ro) l ->
  end_record ro l 0 0 -> cpp_is_mend_record (r_spaces ro) validate l = Val true.
Proof.
  intros W PL PE E. unfold cpp_is_mend_record. rewrite (end_is_fend ro validate l 0) by auto.
  destruct E as (_ & C & _). destruct (plain_control ro l _ _ _ W PL C) as ((A1 & _) & _). rewrite A1. reflexivity.
Qed.
Lemma end_is_tend ro validate l : r_width ro = 11%nat -> plain_line l -> plain_end (r_spaces ro) l ->
  end_record ro l (-1) 0 -> cpp_is_tend_record (r_spaces ro) validate l = Val true.
Proof.
  intros W PL PE E. unfold cpp_is_tend_record. rewrite (end_is_fend ro validate l (-1)) by auto.
  destruct E as (_ & C & _). destruct (plain_control ro l _ _ _ W PL C) as ((A1 & _) & _). rewrite A1. reflexivity.
Qed.
Lemma not_spaces l : ~ blank l -> all_spaces l = false.
Proof.
  intros NB. destruct (all_spaces l) eqn:E; [|reflexivity]. exfalso. apply NB. apply all_spaces_iff, only_spaces_ws in E.
  intros c I. unfold all_ws in E. rewrite Forall_forall in E. auto.
Qed.

(** ** The loop *)
Section Loop.
  Context {D : Type}.
  Variable run_cpp : Z -> Z -> list str -> cpp (D * list str).
  Variable has : Z -> Z -> bool.
  Variable o : croopts.
  Variables exc inc : selection.
  Variable ro : ropts.
  Hypothesis W : r_width ro = 11%nat.
  Hypothesis Acc : cr_accept o = r_spaces ro.

  Notation step := (read_turn run_cpp has o exc inc).
  Notation loop := (read_loop run_cpp has o exc inc).

  (** what is read for a section *)
  Definition reads (mf mt : Z) (body ends : list str) (x : section D) : Prop :=
    (should_parse_section mf mt exc inc = true /\ exists d, x = Parsed d /\
       forall rest, run_cpp mf mt (body ++ ends ++ rest) = Val (d, rest)) \/
    (should_parse_section mf mt exc inc = false /\ cr_validate o = false /\ x = Raw (map with_break body)).

  Definition inv (st : rstate (D := D)) : Prop :=
    rs_first st = false /\ rs_tpid st = true /\ rs_mend st = false /\ rs_tend st = false /\
    (rs_fend st = true -> rs_last st = 0 /\ rs_seen st = true).

  Lemma check_ok st mf : inv st -> mf <> 0 ->
    check_end_records o (rs_fend st) (rs_mend st) (rs_tend st) mf (rs_last st) (rs_seen st) true = Val tt.
  Proof.
    intros (_ & _ & M & T & F) N. unfold check_end_records. rewrite M, T. cbn [orb negb]. rewrite !andb_false_r.
    destruct (rs_fend st); cbn [andb]; [|now rewrite andb_false_r]. destruct (F eq_refl) as [-> ->]. cbn [negb Z.eqb orb].
    destruct (Z.eqb_spec mf 0); [contradiction|]. cbn [negb]. now rewrite !andb_false_r.
  Qed.

  Lemma section_turn st mat mf s rest x : inv st -> mf <> 0 -> section_ok ro mat mf s -> has mf (s_mt s) = true ->
    Forall plain_line (section_lines s) -> reads mf (s_mt s) (s_body s) [s_send s] x ->
    exists l r, section_lines s ++ rest = l :: r /\
      step st l r = Val (rest, turn mf true true false false false (dic_set (rs_dict st) mf (s_mt s) x)).
  Proof.
    intros I Nf (Nt & NE & C & E) H P R. unfold section_lines in *. destruct (s_body s) as [|l b] eqn:Eb; [contradiction|].
    exists l, (b ++ s_send s :: rest). split; [cbn [app]; now rewrite <- app_assoc|].
    apply Forall_app in P as [Pb Ps]. apply Forall_cons_iff in Ps as [Ps _].
    pose proof C as C'. apply Forall_cons_iff in C as [Cl C]. pose proof Pb as Pb'. apply Forall_cons_iff in Pb as [Pl Pb].
    destruct (plain_control ro l _ _ _ W Pl Cl) as ((A1 & A2 & A3) & _). cbn [mkctrl MAT MF MT] in A1, A2, A3.
    pose proof (check_ok st mf I Nf) as CK. destruct I as (I1 & I2 & I3 & I4 & I5).
    unfold read_turn. rewrite A1, A2, A3. cbn [cbind].
    rewrite H. destruct (Z.eqb_spec mf 0); [contradiction|]. cbn [andb negb orb]. rewrite I2, CK. cbn [cbind].
    rewrite I1, I3, I4. cbn [andb].
    destruct R as [(S & d & -> & R)|(S & V & ->)]; rewrite S.
    - specialize (R rest). cbn [app] in R. rewrite R. reflexivity.
    - rewrite V. unfold read_section_verbatim.
      change (l :: b ++ s_send s :: rest) with ((l :: b) ++ s_send s :: rest).
      destruct E as (_ & Ce & _).
      pose proof (scan_section ro mat mf (s_mt s) (l :: b) (s_send s) mat mf 0 rest W Pb' C' Ps Ce (or_intror (not_eq_sym Nt))) as SC.
      unfold mkctrl in SC. rewrite SC. cbn [cbind MF]. rewrite !Z.eqb_refl. reflexivity.
  Qed.

  Definition put (d : mfdic (section D)) (e : Z * Z * section D) : mfdic (section D) :=
    dic_set d (fst (fst e)) (snd (fst e)) (snd e).
  Definition entry (mf : Z) (s : tsection) (e : Z * Z * section D) : Prop :=
    fst e = (mf, s_mt s) /\ reads mf (s_mt s) (s_body s) [s_send s] (snd e).

  Lemma inv_turn mf d : inv (turn mf true true false false false d).
  Proof. repeat split; cbn; discriminate. Qed.

  Definition ready (st : rstate (D := D)) : Prop := rs_seen st = true /\ rs_fend st = false.

  Lemma loop_secs mat mf : mf <> 0 -> forall secs es rest st n, inv st -> (secs <> [] \/ ready st) ->
    Forall (section_ok ro mat mf) secs ->
    Forall (fun s => has mf (s_mt s) = true) secs -> Forall (fun s => Forall plain_line (section_lines s)) secs ->
    Forall2 (entry mf) secs es -> (length (concat (map section_lines secs) ++ rest) <= n)%nat ->
    exists n' st', (length rest <= n')%nat /\ inv st' /\ ready st' /\ rs_dict st' = fold_left put es (rs_dict st) /\
      loop n st (concat (map section_lines secs) ++ rest) = loop n' st' rest.
  Proof.
    intros Nf. induction secs as [|s secs IH]; intros es rest st n I Rd S H P E L.
    - inversion E; subst. destruct Rd as [X|Rd]; [contradiction|]. exists n, st. cbn [map concat app fold_left]. auto.
    - inversion E as [|s' e secs' es' [E1 E2] Es]; subst. apply Forall_cons_iff in S as [S1 S]. apply Forall_cons_iff in H as [H1 H].
      apply Forall_cons_iff in P as [P1 P]. cbn [map concat] in L |- *. rewrite <- app_assoc in L |- *.
      destruct (section_turn st mat mf s (concat (map section_lines secs) ++ rest) (snd e) I Nf S1 H1 P1 E2) as (l & r & El & T).
      assert (Ls : (1 <= length (section_lines s))%nat) by (unfold section_lines; rewrite app_length; cbn; lia).
      rewrite app_length in L. destruct n as [|n]; [lia|].
      destruct (IH es' rest (turn mf true true false false false (dic_set (rs_dict st) mf (s_mt s) (snd e))) n) as (n' & st' & Ln & I' & R' & Dd & Lp); auto.
      { apply inv_turn. }
      { right. split; reflexivity. }
      { lia. }
      exists n', st'. split; [exact Ln|]. split; [exact I'|]. split; [exact R'|]. split.
      { rewrite Dd. cbn [fold_left turn rs_dict]. f_equal. unfold put. now rewrite E1. }
      rewrite El. cbn [read_loop]. rewrite T. cbn [cbind]. exact Lp.
  Qed.

  (** a FEND record *)
  Lemma fend_turn st l mat r : inv st -> ready st -> plain_line l -> plain_end (r_spaces ro) l -> end_record ro l mat 0 ->
    step st l r = Val (r, turn 0 true true true false false (rs_dict st)).
  Proof.
    intros (I1 & I2 & I3 & I4 & I5) [R1 R2] PL PE E. pose proof E as (NB & C & _).
    destruct (plain_control ro l _ _ _ W PL C) as ((A1 & A2 & A3) & _). cbn [mkctrl MAT MF MT] in A1, A2, A3.
    unfold read_turn. rewrite A1, A2, A3. cbn [cbind Z.eqb andb negb orb]. rewrite I1, andb_false_r.
    rewrite (not_spaces l NB), I3, R2. cbn [cbind]. rewrite Acc.
    rewrite (end_is_fend ro _ l mat) by auto. cbn [cbind]. rewrite R1, I2, I4. reflexivity.
  Qed.

  Definition file_sections (f : tfile) : list (Z * tsection) := map (fun s => (f_mf f, s)) (f_secs f).
  Definition entry2 (ms : Z * tsection) (e : Z * Z * section D) : Prop := entry (fst ms) (snd ms) e.
  Definition file_fine (f : tfile) : Prop :=
    Forall (fun s => has (f_mf f) (s_mt s) = true) (f_secs f) /\
    Forall plain_line (file_lines f) /\ plain_end (r_spaces ro) (f_fend f).
  (** behind a file *)
  Definition behind (st : rstate (D := D)) : Prop :=
    rs_first st = false /\ rs_tpid st = true /\ rs_mend st = false /\ rs_tend st = false /\
    rs_fend st = true /\ rs_last st = 0 /\ rs_seen st = true.
  Lemma behind_inv st : behind st -> inv st.
  Proof. intros (a & b & c & d & e & f & g). repeat split; auto. Qed.

  Lemma Forall2_map_l {A B C} (R : B -> C -> Prop) (g : A -> B) l l' : Forall2 R (map g l) l' -> Forall2 (fun a => R (g a)) l l'.
  Proof. revert l'. induction l as [|a l IH]; intros l' H; inversion H; subst; constructor; auto. Qed.
  Lemma Forall_concat {A} (P : A -> Prop) ll : Forall P (concat ll) <-> Forall (Forall P) ll.
  Proof.
    induction ll as [|l ll IH]; cbn [concat]; [split; constructor|]. rewrite Forall_app, Forall_cons_iff, IH. tauto.
  Qed.

  Lemma loop_file1 mat f es rest st n : inv st -> file_ok ro mat f -> file_fine f ->
    Forall2 entry2 (file_sections f) es -> (length (file_lines f ++ rest) <= n)%nat ->
    exists n' st', (length rest <= n')%nat /\ behind st' /\ rs_dict st' = fold_left put es (rs_dict st) /\
      loop n st (file_lines f ++ rest) = loop n' st' rest.
  Proof.
    intros I (Nf & NE & S & E) (H & P & PE) Es L. unfold file_lines in *.
    apply Forall_app in P as [P Pf]. apply Forall_cons_iff in Pf as [Pf _]. apply Forall_concat in P. rewrite Forall_map in P.
    rewrite <- app_assoc in L |- *. cbn [app] in L |- *.
    apply Forall2_map_l in Es.
    destruct (loop_secs mat (f_mf f) Nf (f_secs f) es (f_fend f :: rest) st n I (or_introl NE) S H P Es L) as (n1 & st1 & L1 & I1 & R1 & D1 & Lp).
    rewrite Lp. destruct n1 as [|n1]; [cbn in L1; lia|]. cbn [read_loop]. rewrite (fend_turn st1 (f_fend f) mat rest I1 R1 Pf PE E). cbn [cbind].
    exists n1, (turn 0 true true true false false (rs_dict st1)). split; [cbn in L1; lia|]. split; [repeat split|]. split; [exact D1|reflexivity].
  Qed.

  Lemma loop_files1 mat : forall fs es rest st n, inv st -> (fs <> [] \/ behind st) -> Forall (file_ok ro mat) fs -> Forall file_fine fs ->
    Forall2 entry2 (concat (map file_sections fs)) es -> (length (concat (map file_lines fs) ++ rest) <= n)%nat ->
    exists n' st', (length rest <= n')%nat /\ behind st' /\ rs_dict st' = fold_left put es (rs_dict st) /\
      loop n st (concat (map file_lines fs) ++ rest) = loop n' st' rest.
  Proof.
    induction fs as [|f fs IH]; intros es rest st n I B S F E L; cbn [map concat] in *.
    - inversion E; subst. destruct B as [B|B]; [contradiction|]. exists n, st. cbn [app fold_left]. auto.
    - apply Forall2_app_inv_l in E as (e1 & e2 & E1 & E2 & ->). apply Forall_cons_iff in S as [S1 S]. apply Forall_cons_iff in F as [F1 F].
      rewrite <- app_assoc in L |- *.
      destruct (loop_file1 mat f e1 _ st n I S1 F1 E1 L) as (n1 & st1 & L1 & B1 & D1 & Lp). rewrite Lp.
      destruct (IH e2 rest st1 n1 (behind_inv _ B1) (or_intror B1) S F E2 L1) as (n2 & st2 & L2 & B2 & D2 & Lp2).
      exists n2, st2. split; [exact L2|]. split; [exact B2|]. split; [|exact Lp2]. now rewrite D2, D1, fold_left_app.
  Qed.

  (** the end of the tape *)
  Lemma loop_end st mend tend n : behind st -> plain_line mend -> plain_end (r_spaces ro) mend -> end_record ro mend 0 0 ->
    plain_line tend -> plain_end (r_spaces ro) tend -> end_record ro tend (-1) 0 -> (2 <= n)%nat ->
    loop n st [mend; tend] = Val (rs_dict st).
  Proof.
    intros (a & b & c & d & e & f & g) P1 Q1 E1 P2 Q2 E2 L.
    destruct n as [|[|n]]; try lia. cbn [read_loop].
    assert (T1 : step st mend [tend] = Val ([tend], turn 0 true true true true false (rs_dict st))).
    { pose proof E1 as (NB & C & _). destruct (plain_control ro mend _ _ _ W P1 C) as ((A1 & A2 & A3) & _). cbn [mkctrl MAT MF MT] in A1, A2, A3.
      unfold read_turn. rewrite A1, A2, A3. cbn [cbind Z.eqb andb negb orb]. rewrite a, andb_false_r.
      rewrite (not_spaces _ NB), c, e. cbn [cbind]. rewrite Acc, (end_is_mend ro _ mend) by auto. cbn [cbind]. now rewrite b, d, g. }
    rewrite T1. cbn [cbind read_loop]. set (st1 := turn _ _ _ _ _ _ _).
    assert (T2 : step st1 tend [] = Val ([], turn 0 true true true false true (rs_dict st))).
    { pose proof E2 as (NB & C & _). destruct (plain_control ro tend _ _ _ W P2 C) as ((A1 & A2 & A3) & _). cbn [mkctrl MAT MF MT] in A1, A2, A3.
      unfold read_turn. rewrite A1, A2, A3. cbn [cbind Z.eqb andb negb orb st1 turn rs_first]. rewrite andb_false_r.
      rewrite (not_spaces _ NB). cbn [rs_mend]. rewrite Acc, (end_is_tend ro _ tend) by auto. reflexivity. }
    rewrite T2. cbn [cbind]. destruct n; reflexivity.
  Qed.

  (** the head of the tape *)
  Lemma head_turn head l r mat mf mt mat' x : plain_line head -> carries (r_width ro) head mat 0 0 -> has 0 0 = true ->
    plain_line l -> carries (r_width ro) l mat' mf mt -> mf <> 0 ->
    reads 0 0 [head] [] x ->
    step read_start head (l :: r) = Val (l :: r, turn 0 true true false false false (dic_set [] 0 0 x)).
  Proof.
    intros P C H Pl Cl Nf R. destruct (plain_control ro head _ _ _ W P C) as ((A1 & A2 & A3) & _). cbn [mkctrl MAT MF MT] in A1, A2, A3.
    unfold read_turn. rewrite A1, A2, A3. cbn [cbind]. rewrite H. cbn [Z.eqb andb negb orb read_start rs_first rs_fend rs_mend rs_tend rs_last rs_seen rs_dict rs_tpid].
    unfold check_end_records. cbn [andb orb negb]. rewrite !andb_false_r. cbn [cbind].
    destruct R as [(S & d & -> & R)|(S & V & ->)]; rewrite S.
    - specialize (R (l :: r)). cbn [app] in R. rewrite R. reflexivity.
    - rewrite V. unfold read_section_verbatim.
      pose proof (scan_section ro mat 0 0 [head] l mat' mf mt r W) as SC. cbn [app] in SC.
      unfold mkctrl in SC. rewrite SC; auto. 
  Qed.

  Definition dict_of (es : list (Z * Z * section D)) : mfdic (section D) := fold_left put es [].

  Lemma read_tape t m head_x es : tape_ok ro t -> t_mats t = [m] -> t_rest t = [] -> Forall plain_line (tape_lines t) ->
    Forall (fun f => plain_end (r_spaces ro) (f_fend f)) (m_files m) -> plain_end (r_spaces ro) (m_mend m) -> plain_end (r_spaces ro) (t_tend t) ->
    has 0 0 = true -> Forall (fun ms => has (fst ms) (s_mt (snd ms)) = true) (sections m) ->
    reads 0 0 [t_head t] [] head_x -> Forall2 entry2 (sections m) es ->
    master_read run_cpp has o exc inc (tape_lines t) = Val (dict_of ((0, 0, head_x) :: es)).
  Proof.
    intros (NB & (hm & Ch) & M & E & B) Em Er P PF PM PT H0 H Rh Es. rewrite Em in M. apply Forall_cons_iff in M as [(Nm & NE & F & Ee) _].
    unfold master_read. unfold tape_lines in *. rewrite Em, Er in P |- *. cbn [map concat] in P |- *. rewrite app_nil_r in P |- *.
    unfold material_lines in *. rewrite <- app_assoc in P |- *. cbn [app] in P |- *.
    apply Forall_cons_iff in P as [Ph P]. apply Forall_app in P as [P P']. apply Forall_cons_iff in P' as [Pm P']. apply Forall_cons_iff in P' as [Pt _].
    cbn [length]. cbn [read_loop].
    assert (HD : exists l r mf mt, concat (map file_lines (m_files m)) = l :: r /\ carries (r_width ro) l (m_mat m) mf mt /\ mf <> 0 /\ plain_line l).
    { destruct (m_files m) as [|f fs]; [contradiction|]. apply Forall_cons_iff in F as [(Nf & NEs & Fs & _) _].
      cbn [map concat] in P |- *. unfold file_lines in P |- *. destruct (f_secs f) as [|s ss]; [contradiction|]. apply Forall_cons_iff in Fs as [(_ & NEb & Cb & _) _].
      cbn [map concat] in P |- *. unfold section_lines in P |- *. destruct (s_body s) as [|l b]; [contradiction|]. apply Forall_cons_iff in Cb as [Cb _].
      cbn [app] in P |- *. apply Forall_cons_iff in P as [P _]. eexists _, _, (f_mf f), (s_mt s). split; [reflexivity|]. auto. }
    destruct HD as (l & r & mf & mt & El & Cl & Nf & Pl).
    rewrite El. cbn [app]. rewrite (head_turn (t_head t) l _ hm mf mt (m_mat m) head_x) by auto. cbn [cbind].
    change (l :: r ++ [m_mend m; t_tend t]) with ((l :: r) ++ [m_mend m; t_tend t]). rewrite <- El in *. clear l r El Cl Pl.
    assert (FF : Forall file_fine (m_files m)).
    { apply Forall_forall. intros f I. rewrite Forall_forall in PF, H. split; [|split].
      - apply Forall_forall. intros s Is. apply (H (f_mf f, s)). unfold sections. apply in_concat. eexists. split; [apply in_map; exact I|]. now apply in_map.
      - apply Forall_concat in P. rewrite Forall_map in P. rewrite Forall_forall in P. auto.
      - auto. }
    destruct (loop_files1 (m_mat m) (m_files m) es [m_mend m; t_tend t] (turn 0 true true false false false (dic_set [] 0 0 head_x))
      (length (concat (map file_lines (m_files m)) ++ [m_mend m; t_tend t])) (inv_turn _ _) (or_introl NE) F FF Es (le_n _)) as (n' & st' & Ln & Bh & Dd & Lp).
    rewrite Lp. rewrite loop_end; auto. rewrite Dd. reflexivity.
  Qed.
End Loop.

(** ** The dictionary *)
Lemma lookup_set {A} (d : mfdic A) mf mt x mf' mt' :
  lookup2 (dic_set d mf mt x) mf' mt' = if (mf' =? mf) && (mt' =? mt) then Some x else lookup2 d mf' mt'.
Proof.
  unfold dic_set, lookup2. rewrite zget_zset.
  destruct (Z.eqb_spec mf' mf) as [->|]; cbn [andb]; [|reflexivity].
  rewrite zget_zset. destruct (Z.eqb_spec mt' mt) as [->|]; cbn [andb]; [reflexivity|]. destruct (zget mf d); reflexivity.
Qed.
Lemma dict_set {A} (d : mfdic A) mf mt x : is_dict2 d -> is_dict2 (dic_set d mf mt x).
Proof.
  intros [H1 H2]. split; [now apply zset_dict|]. intros mf' sub I. apply zset_in in I as [E|I]; [|eauto]. inversion E; subst.
  apply zset_dict. destruct (zget mf d) eqn:G; [|constructor]. apply zget_in in G. eauto.
Qed.
Lemma lookup_put {D} (es : list (Z * Z * section D)) : forall d, is_dict2 d -> NoDup (map fst es) ->
  is_dict2 (fold_left put es d) /\
  (forall mf mt x, In (mf, mt, x) es -> lookup2 (fold_left put es d) mf mt = Some x) /\
  (forall mf mt, ~ In (mf, mt) (map fst es) -> lookup2 (fold_left put es d) mf mt = lookup2 d mf mt).
Proof.
  induction es as [|[[mf0 mt0] x0] es IH]; intros d G N; cbn [fold_left map] in *.
  - split; [exact G|]. split; [intros ? ? ? []|reflexivity].
  - inversion N as [|k ks Nk Nes]; subst. destruct (IH (put d (mf0, mt0, x0)) (dict_set _ _ _ _ G) Nes) as (G' & A & B).
    split; [exact G'|]. split.
    + intros mf mt x [E|I]; [|auto]. inversion E; subst. rewrite B by exact Nk. unfold put. cbn [fst snd]. rewrite lookup_set, !Z.eqb_refl. reflexivity.
    + intros mf mt NI. rewrite B by (intros X; apply NI; now right). unfold put. cbn [fst snd]. rewrite lookup_set.
      destruct (Z.eqb_spec mf mf0) as [->|]; destruct (Z.eqb_spec mt mt0) as [->|]; cbn [andb]; try reflexivity. exfalso. apply NI. now left.
Qed.
Lemma holds_dict_of {D} (es : list (Z * Z * section D)) mf mt x : NoDup (map fst es) ->
  (holds (dict_of es) mf mt x <-> In (mf, mt, x) es).
Proof.
  intros N. destruct (lookup_put es [] ltac:(split; [constructor|intros ? ? []]) N) as (G & A & B).
  unfold dict_of. rewrite holds_lookup by exact G. split; [|apply A].
  intros H. destruct (in_dec (fun a b : Z * Z => ltac:(repeat decide equality) : {a = b} + {a <> b}) (mf, mt) (map fst es)) as [I|NI].
  - apply in_map_iff in I as ([[a b] y] & E & I). cbn [fst] in E. inversion E; subst.
    assert (Q : Some y = Some x) by (rewrite <- H; symmetry; exact (A _ _ _ I)). inversion Q; subst. exact I.
  - exfalso. assert (Q : None = Some x) by (rewrite <- H; symmetry; exact (B _ _ NI)). discriminate Q.
Qed.

(** ** Python on the lines with their line breaks *)
Lemma break_slice a b l : (b <= length l)%nat -> slice a b (with_break l) = slice a b l.
Proof. intros H. unfold with_break. now apply slice_app_l. Qed.
Lemma break_blank l : blank (with_break l) -> blank l.
Proof. intros B c I. apply B. unfold with_break. apply in_app_iff. now left. Qed.
Lemma break_carries ro l mat mf mt : r_width ro = 11%nat -> (75 <= length l)%nat -> carries (r_width ro) l mat mf mt ->
  carries (r_width ro) (with_break l) mat mf mt.
Proof. intros W L C. unfold carries in *. rewrite W in *. cbn [Nat.mul Nat.add] in *. now rewrite !break_slice by lia. Qed.
Lemma break_end ro l mat mf : r_width ro = 11%nat -> (75 <= length l)%nat -> end_record ro l mat mf -> end_record ro (with_break l) mat mf.
Proof.
  intros W L (NB & C & z). split; [intros B; apply NB; now apply break_blank|]. split; [now apply break_carries|].
  unfold real_zero, int_zero in *. rewrite W in *. cbn [Nat.mul Nat.add] in *. now rewrite !break_slice by lia.
Qed.
Lemma break_section_lines s : section_lines (break_section s) = map with_break (section_lines s).
Proof. unfold section_lines, break_section. cbn [s_body s_send]. now rewrite map_app. Qed.
Lemma break_file_lines f : file_lines (break_file f) = map with_break (file_lines f).
Proof.
  unfold file_lines, break_file. cbn [f_secs f_fend]. rewrite map_app, concat_map, !map_map. f_equal. f_equal.
  apply map_ext. intros s. apply break_section_lines.
Qed.
Lemma break_material_lines m : material_lines (break_material m) = map with_break (material_lines m).
Proof.
  unfold material_lines, break_material. cbn [m_files m_mend]. rewrite map_app, concat_map, !map_map. f_equal. f_equal.
  apply map_ext. intros s. apply break_file_lines.
Qed.
Lemma break_tape_lines t : tape_lines (break_tape t) = map with_break (tape_lines t).
Proof.
  unfold tape_lines, break_tape. cbn [t_head t_mats t_tend t_rest map]. rewrite map_app, concat_map, !map_map. f_equal. cbn [map]. f_equal. f_equal.
  apply map_ext. intros s. apply break_material_lines.
Qed.
Lemma break_tape_ok ro t : r_width ro = 11%nat -> t_rest t = [] -> Forall (fun l => (75 <= length l)%nat) (tape_lines t) -> tape_ok ro t -> tape_ok ro (break_tape t).
Proof.
  intros W Er P (NB & (hm & C) & M & E & _). unfold tape_lines in P. apply Forall_cons_iff in P as [Ph P]. apply Forall_app in P as [P P']. apply Forall_cons_iff in P' as [Pt _].
  split; [intros B; apply NB; now apply break_blank|]. split; [exists hm; now apply break_carries|].
  split; [|split; [now apply break_end|cbn [break_tape t_rest]; rewrite Er; constructor]].
  cbn [break_tape t_mats]. apply Forall_map. apply Forall_concat in P. rewrite Forall_map in P. apply Forall_forall. intros m I. rewrite Forall_forall in M, P.
  specialize (M m I). specialize (P m I). destruct M as (N & NE & F & Em). unfold material_lines in P. apply Forall_app in P as [P Pm]. apply Forall_cons_iff in Pm as [Pm _].
  split; [exact N|]. split; [cbn; now destruct (m_files m)|]. split; [|now apply break_end].
  cbn [break_material m_files m_mat]. apply Forall_map. apply Forall_concat in P. rewrite Forall_map in P. apply Forall_forall. intros f If. rewrite Forall_forall in F, P.
  specialize (F f If). specialize (P f If). destruct F as (Nf & NEf & S & Ef). unfold file_lines in P. apply Forall_app in P as [P Pf]. apply Forall_cons_iff in Pf as [Pf _].
  split; [exact Nf|]. split; [cbn; now destruct (f_secs f)|]. split; [|now apply break_end].
  cbn [break_file f_secs f_mf]. apply Forall_map. apply Forall_concat in P. rewrite Forall_map in P. apply Forall_forall. intros s Is. rewrite Forall_forall in S, P.
  specialize (S s Is). specialize (P s Is). destruct S as (Ns & NEs & Cs & Es). unfold section_lines in P. apply Forall_app in P as [P Ps]. apply Forall_cons_iff in Ps as [Ps _].
  split; [exact Ns|]. split; [cbn; now destruct (s_body s)|]. split; [|now apply break_end].
  cbn [break_section s_body s_mt]. apply Forall_map. rewrite Forall_forall in *. intros l Il. apply break_carries; auto.
Qed.

(** the section of a tape with one material and no section twice *)
Lemma pick_sections mf mt m : pick_mat mf mt m =
  concat (map (fun ms => if (fst ms =? mf) && (s_mt (snd ms) =? mt) then s_body (snd ms) else []) (sections m)).
Proof.
  unfold pick_mat, sections. induction (m_files m) as [|f fs IH]; [reflexivity|]. cbn [map concat].
  rewrite IH, map_app, concat_app. f_equal. unfold pick_file. rewrite map_map. cbn [fst snd].
  destruct (f_mf f =? mf); cbn [andb]; [reflexivity|]. symmetry. apply concat_nil, Forall_map, Forall_forall. reflexivity.
Qed.
Definition key (ms : Z * tsection) : Z * Z := (fst ms, s_mt (snd ms)).
Lemma pick_unique mf mt secs : NoDup (map key secs) ->
  (forall s, In (mf, s) secs -> s_mt s = mt -> 
    concat (map (fun ms => if (fst ms =? mf) && (s_mt (snd ms) =? mt) then s_body (snd ms) else []) secs) = s_body s) /\
  (~ In (mf, mt) (map key secs) ->
    concat (map (fun ms => if (fst ms =? mf) && (s_mt (snd ms) =? mt) then s_body (snd ms) else []) secs) = []).
Proof.
  induction secs as [|[mf0 s0] secs IH]; intros N; cbn [map concat fst snd] in *; [split; [intros ? []|reflexivity]|].
  inversion N as [|k ks Nk Ns]; subst. destruct (IH Ns) as [A B]. split.
  - intros s [E|I] Et.
    + inversion E; subst. rewrite !Z.eqb_refl. cbn [andb]. unfold key in Nk at 1. cbn [fst snd] in Nk. rewrite B by exact Nk. apply app_nil_r.
    + rewrite (A s I Et). destruct (Z.eqb_spec mf0 mf) as [->|]; [|reflexivity]. destruct (Z.eqb_spec (s_mt s0) mt) as [X|]; [|reflexivity].
      exfalso. apply Nk. apply in_map_iff. exists (mf, s). split; [|exact I]. unfold key. cbn [fst snd]. congruence.
  - intros NI. rewrite B by (intros X; apply NI; now right).
    destruct (Z.eqb_spec mf0 mf) as [->|]; [|reflexivity]. destruct (Z.eqb_spec (s_mt s0) mt) as [<-|]; [|reflexivity].
    exfalso. apply NI. now left.
Qed.

Lemma sections_fine ro t m mf s : r_width ro = 11%nat -> tape_ok ro t -> t_mats t = [m] -> Forall (fun l => (75 <= length l)%nat) (tape_lines t) ->
  In (mf, s) (sections m) -> mf <> 0 /\ section_ok ro (m_mat m) mf s /\ Forall (fun l => (75 <= length l)%nat) (s_body s).
Proof.
  intros W T Em L75 I. pose proof T as (_ & _ & M & _). rewrite Em in M. apply Forall_cons_iff in M as [(_ & _ & F & _) _]. unfold sections in I. apply in_concat in I as (l & I & J). apply in_map_iff in I as (f & <- & I). apply in_map_iff in J as (s' & E & J). inversion E; subst.
    rewrite Forall_forall in F. destruct (F f I) as (Nf & _ & S & _). rewrite Forall_forall in S. split; [exact Nf|]. split; [auto|].
    apply Forall_forall. intros l Il. rewrite Forall_forall in L75. apply L75. unfold tape_lines. rewrite Em. right. apply in_app_iff. left. cbn [map concat]. rewrite app_nil_r.
    unfold material_lines. apply in_app_iff. left. apply in_concat. exists (file_lines f). split; [now apply in_map|]. unfold file_lines. apply in_app_iff. left.
    apply in_concat. exists (section_lines s). split; [now apply in_map|]. unfold section_lines. apply in_app_iff. now left.
Qed.
Lemma tape_dict_holds ro t m : r_width ro = 11%nat -> strict ro -> tape_ok ro t -> t_mats t = [m] -> t_rest t = [] ->
  Forall (fun l => (75 <= length l)%nat) (tape_lines t) -> NoDup (map (fun ms => (fst ms, s_mt (snd ms))) (sections m)) ->
  split_sections ro (map with_break (tape_lines t)) = Ok (tape_dict (break_tape t)) /\ is_dict2 (tape_dict (break_tape t)) /\
  forall mf mt ls, holds (tape_dict (break_tape t)) mf mt ls <->
    (mf = 0 /\ mt = 0 /\ ls = map with_break [t_head t]) \/ exists s, In (mf, s) (sections m) /\ mt = s_mt s /\ ls = map with_break (s_body s).
Proof.
  intros W St T Em Er L75 ND.
  assert (SO : forall mf s, In (mf, s) (sections m) -> mf <> 0 /\ section_ok ro (m_mat m) mf s /\ Forall (fun l => (75 <= length l)%nat) (s_body s)) by (intros mf s I; now apply (sections_fine ro t)).
  pose proof (break_tape_ok ro t W Er L75 T) as Tb.
  assert (SP : split_sections ro (map with_break (tape_lines t)) = Ok (tape_dict (break_tape t))).
  { rewrite <- break_tape_lines. apply split_tape; [apply St|exact Tb]. }
  destruct (tape_dict_spec ro (break_tape t) Tb) as [[G1 G2] TS].
  assert (TB : forall mf mt, mf <> 0 -> tape_section (break_tape t) mf mt =
    concat (map (fun ms => if (fst ms =? mf) && (s_mt (snd ms) =? mt) then s_body (snd ms) else []) (sections (break_material m)))).
  { intros mf mt N. unfold tape_section. destruct (Z.eqb_spec mf 0); [contradiction|]. cbn [andb break_tape t_mats]. rewrite Em. cbn [map concat]. rewrite app_nil_r. apply pick_sections. }
  assert (SB : sections (break_material m) = map (fun ms => (fst ms, break_section (snd ms))) (sections m)).
  { unfold sections, break_material. cbn [m_files]. rewrite concat_map, !map_map. f_equal. apply map_ext. intros f. cbn [break_file f_secs f_mf]. now rewrite !map_map. }
  assert (KB : NoDup (map key (sections (break_material m)))).
  { rewrite SB, map_map. exact ND. }
  split; [exact SP|]. split; [exact G1|].
  intros mf mt ls. rewrite holds_lookup by exact G1.
    assert (X : lookup2 (tape_dict (break_tape t)) mf mt = Some ls <-> ls = tape_section (break_tape t) mf mt /\ ls <> []).
    { rewrite <- TS. unfold lines_of. destruct (lookup2 (tape_dict (break_tape t)) mf mt) as [x|] eqn:Y; split.
      - intros Z; inversion Z; subst. split; [reflexivity|]. eapply G2; eauto.
      - intros [-> _]; reflexivity.
      - discriminate.
      - intros [-> Z]; contradiction. }
    rewrite X. clear X. destruct (Z.eq_dec mf 0) as [->|Nf].
    - split.
      + intros [-> Ne]. left. split; [reflexivity|]. unfold tape_section in Ne |- *. change (0 =? 0) with true in Ne |- *. cbn [andb] in Ne |- *.
        destruct (Z.eqb_spec mt 0) as [Et|Nt]; [split; [exact Et|reflexivity]|].
        exfalso. apply Ne. destruct Tb as (_ & _ & Fb & _). exact (pick_zero ro mt _ Fb).
      + intros [(_ & -> & ->)|(s & I & _)]; [split; [reflexivity|discriminate]|]. destruct (SO 0 s I). contradiction.
    - rewrite (TB mf mt Nf). destruct (pick_unique mf mt _ KB) as [U1 U2]. split.
      + intros [-> Ne]. right. destruct (in_dec (fun a b : Z * Z => ltac:(repeat decide equality) : {a = b} + {a <> b}) (mf, mt) (map key (sections (break_material m)))) as [I|NI].
        * apply in_map_iff in I as ([mf' s'] & E & I). unfold key in E. cbn [fst snd] in E. inversion E; subst.
          pose proof (U1 s' I eq_refl) as Y. rewrite SB in I. apply in_map_iff in I as ([mf0 s] & E0 & I). cbn [fst snd] in E0. inversion E0; subst.
          exists s. split; [exact I|]. split; [reflexivity|]. rewrite Y. reflexivity.
        * exfalso. apply Ne. apply U2, NI.
      + intros [(-> & _)|(s & I & -> & ->)]; [contradiction|].
        assert (I' : In (mf, break_section s) (sections (break_material m))) by (rewrite SB; apply in_map_iff; exists (mf, s); auto).
        rewrite (U1 _ I' eq_refl). split; [reflexivity|]. destruct (SO mf s I) as (_ & (_ & NEb & _) & _). cbn. now destruct (s_body s). 
Qed.

Section Python.
  Context {P D : Type}.
  Variable pr : P -> Z -> Z -> list str -> result D * P.
  Variable has : Z -> Z -> bool.
  Variables (ro : ropts) (wo : wopts) (nofail : bool) (exc inc : selection).

  (** what Python makes of a section, whatever the state of the parser *)
  Definition py_reads (mf mt : Z) (ls : list str) (x : section D) : Prop :=
    forall p, exists p', parse_section pr has ro wo nofail exc inc p mf mt ls = (Ok x, p').
  Definition py_rel (mf : Z) (a : Z * list str) (b : Z * section D) : Prop :=
    fst a = fst b /\ py_reads mf (fst a) (snd a) (snd b).
  Definition py_rel2 (a : Z * list (Z * list str)) (b : Z * list (Z * section D)) : Prop :=
    fst a = fst b /\ Forall2 (py_rel (fst a)) (snd a) (snd b).

  Lemma py_mts mf : forall mts, (forall mt ls, In (mt, ls) mts -> exists x, py_reads mf mt ls x) ->
    forall p, exists sub p', parse_mts pr has ro wo nofail exc inc p mf mts = (Ok sub, p') /\ Forall2 (py_rel mf) mts sub.
  Proof.
    induction mts as [|[mt ls] mts IH]; intros H p; cbn [parse_mts]; [exists [], p; split; [reflexivity|constructor]|].
    destruct (H mt ls (or_introl eq_refl)) as [x R]. destruct (R p) as [p1 E]. rewrite E.
    destruct (IH (fun a b I => H a b (or_intror I)) p1) as (sub & p2 & E2 & F). rewrite E2.
    exists ((mt, x) :: sub), p2. split; [reflexivity|]. constructor; [split; [reflexivity|exact R]|exact F].
  Qed.
  Lemma py_mfs : forall d, (forall mf mt ls, holds d mf mt ls -> exists x, py_reads mf mt ls x) ->
    forall p, exists d' p', parse_mfs pr has ro wo nofail exc inc p d = (Ok d', p') /\ Forall2 py_rel2 d d'.
  Proof.
    induction d as [|[mf mts] d IH]; intros H p; cbn [parse_mfs]; [exists [], p; split; [reflexivity|constructor]|].
    destruct (py_mts mf mts (fun mt ls I => H mf mt ls (ex_intro _ mts (conj (or_introl eq_refl) I))) p) as (sub & p1 & E & F). rewrite E.
    destruct (IH (fun a b l X => match X with ex_intro _ s (conj y z) => H a b l (ex_intro _ s (conj (or_intror y) z)) end) p1) as (d' & p2 & E2 & F2). rewrite E2.
    exists ((mf, sub) :: d'), p2. split; [reflexivity|]. constructor; [split; [reflexivity|exact F]|exact F2].
  Qed.
  Lemma py_holds d d' mf mt x : Forall2 py_rel2 d d' ->
    (forall ls y, holds d mf mt ls -> py_reads mf mt ls y -> y = x) -> (exists ls, holds d mf mt ls) -> holds d' mf mt x.
  Proof.
    intros F U (ls & sub & I & J). destruct (Forall2_in_l _ _ _ _ F I) as ([mf' s'] & I' & X & F'). cbn [fst snd] in *. subst mf'.
    destruct (Forall2_in_l _ _ _ _ F' J) as ([mt' y] & J' & Y & R). cbn [fst snd] in *. subst mt'.
    rewrite <- (U ls y); [exists s'; auto|exists sub; auto|exact R].
  Qed.
  Lemma py_holds_inv d d' mf mt x : Forall2 py_rel2 d d' -> holds d' mf mt x -> exists ls, holds d mf mt ls /\ py_reads mf mt ls x.
  Proof.
    intros F (sub & I & J). destruct (Forall2_in_r _ _ _ _ F I) as ([mf' s'] & I' & X & F'). cbn [fst snd] in *. subst mf'.
    destruct (Forall2_in_r _ _ _ _ F' J) as ([mt' ls] & J' & Y & R). cbn [fst snd] in *. subst mt'. exists ls. split; [exists s'; auto|exact R].
  Qed.
  Lemma py_reads_fun mf mt ls x y (p : P) : py_reads mf mt ls x -> py_reads mf mt ls y -> x = y.
  Proof. intros A B. destruct (A p) as [p1 E1]. destruct (B p) as [p2 E2]. congruence. Qed.
End Python.

Section Both.
  Context {P D : Type}.
  Variable pr : P -> Z -> Z -> list str -> result D * P.
  Variable run_cpp : Z -> Z -> list str -> cpp (D * list str).
  Variable has : Z -> Z -> bool.
  Variables (ro : ropts) (wo : wopts) (nofail : bool) (o : croopts) (exc inc : selection).
  Hypothesis W : r_width ro = 11%nat.
  Hypothesis Ww : w_width wo = 11%nat.

  Lemma both_read mat mf mt mf' body ends : body <> [] -> has mf mt = true ->
    Forall (fun l => carries (r_width ro) l mat mf' mt) body -> mf' = mf -> Forall (fun l => (75 <= length l)%nat) body ->
    (selected exc inc mf mt -> recipes_agree pr run_cpp ro wo mf mt body ends) ->
    (cr_validate o = true -> selected exc inc mf mt) ->
    exists x, reads run_cpp o exc inc mf mt body ends x /\ py_reads pr has ro wo nofail exc inc mf mt (map with_break body) x.
  Proof.
    intros NE H C -> L A V. destruct body as [|l b]; [contradiction|]. apply Forall_cons_iff in C as [C _]. apply Forall_cons_iff in L as [L _].
    apply (break_carries ro l) in C; [|exact W|exact L]. apply carries_iff in C.
    unfold py_reads, parse_section, get_line. cbn [map nth_error bind]. rewrite C, H. cbn [andb].
    destruct (should_skip_section mf mt exc inc) eqn:Sk; cbn [negb].
    - exists (Raw (map with_break (l :: b))). split; [|intros p; exists p; reflexivity]. right. rewrite selection_same, Sk. split; [reflexivity|]. split; [|reflexivity].
      destruct (cr_validate o) eqn:E; [|reflexivity]. specialize (V eq_refl). apply selected_iff in V. congruence.
    - destruct (A (proj2 (selected_iff mf mt exc inc) Sk)) as (d & A1 & A2).
      exists (Parsed d). split; [left; rewrite selection_same, Sk; split; [reflexivity|]; exists d; auto|].
      intros p. pose proof (read_ctrl_fits _ _ _ C) as Fc.
      destruct (write_end_line ro wo false {| MAT := mat; MF := mf; MT := 0 |} $"99999") as (sl & E & Er).
      { unfold field_width. rewrite Ww. lia. } { now rewrite W, Ww. } { destruct Fc as (F1 & F2 & F3). repeat split; cbn in *; lia. } { reflexivity. } { reflexivity. }
      unfold write_send, mkctrl. cbn [MAT MF]. rewrite E.
      destruct (A1 p sl mat Er) as [p' R]. cbn [map] in R. rewrite R. exists p'. reflexivity.
  Qed.

  Lemma tape_agreement p t m : strict ro -> cr_accept o = r_spaces ro ->
    tape_ok ro t -> t_mats t = [m] -> t_rest t = [] -> Forall plain_line (tape_lines t) ->
    Forall (fun f => plain_end (r_spaces ro) (f_fend f)) (m_files m) -> plain_end (r_spaces ro) (m_mend m) -> plain_end (r_spaces ro) (t_tend t) ->
    NoDup (map (fun ms => (fst ms, s_mt (snd ms))) (sections m)) ->
    has 0 0 = true -> (forall mf s, In (mf, s) (sections m) -> has mf (s_mt s) = true) ->
    (cr_validate o = true -> selected exc inc 0 0 /\ forall mf s, In (mf, s) (sections m) -> selected exc inc mf (s_mt s)) ->
    (selected exc inc 0 0 -> recipes_agree pr run_cpp ro wo 0 0 [t_head t] []) ->
    (forall mf s, In (mf, s) (sections m) -> selected exc inc mf (s_mt s) ->
       recipes_agree pr run_cpp ro wo mf (s_mt s) (s_body s) [s_send s]) ->
    exists d p' d', parse_tape pr has ro wo nofail exc inc p (map with_break (tape_lines t)) = (Ok d, p') /\
      master_read run_cpp has o exc inc (tape_lines t) = Val d' /\
      forall mf mt x, holds d mf mt x <-> holds d' mf mt x.
  Proof.
    intros St Acc T Em Er PL PF PM PT ND H0 H V A0 A.
    assert (L75 : Forall (fun l => (75 <= length l)%nat) (tape_lines t)) by (eapply Forall_impl; [|exact PL]; intros l X; apply X).
    pose proof T as (NBh & (hm & Ch) & M & _). rewrite Em in M. apply Forall_cons_iff in M as [(Nm & NEm & F & _) _].
    assert (SO : forall mf s, In (mf, s) (sections m) -> mf <> 0 /\ section_ok ro (m_mat m) mf s /\ Forall (fun l => (75 <= length l)%nat) (s_body s)) by (intros mf s I; now apply (sections_fine ro t)).
    assert (PLh : (75 <= length (t_head t))%nat) by (unfold tape_lines in L75; now inversion L75).
    assert (Fh1 : Forall (fun l => carries (r_width ro) l hm 0 0) [t_head t]) by (apply Forall_cons; [exact Ch|apply Forall_nil]).
    assert (Fh2 : Forall (fun l : str => (75 <= length l)%nat) [t_head t]) by (apply Forall_cons; [exact PLh|apply Forall_nil]).
    destruct (both_read hm 0 0 0 [t_head t] [] ltac:(discriminate) H0 Fh1 eq_refl Fh2 A0 (fun v => proj1 (V v))) as (hx & Rh & Qh).
    assert (ES : exists es, Forall2 (fun ms e => entry2 run_cpp o exc inc ms e /\
       py_reads pr has ro wo nofail exc inc (fst ms) (s_mt (snd ms)) (map with_break (s_body (snd ms))) (snd e)) (sections m) es).
    { assert (G : forall l, (forall ms, In ms l -> In ms (sections m)) -> exists es, Forall2 (fun ms e => entry2 run_cpp o exc inc ms e /\
         py_reads pr has ro wo nofail exc inc (fst ms) (s_mt (snd ms)) (map with_break (s_body (snd ms))) (snd e)) l es).
      { induction l as [|[mf s] l IH]; intros X; [exists []; constructor|]. destruct IH as [es IH]; [intros; apply X; now right|].
        assert (I : In (mf, s) (sections m)) by (apply X; now left). destruct (SO mf s I) as (Nf & (Nt & NEb & Cb & _) & Lb).
        destruct (both_read (m_mat m) mf (s_mt s) mf (s_body s) [s_send s] NEb (H mf s I) Cb eq_refl Lb (A mf s I) (fun v => proj2 (V v) mf s I)) as (x & R & Q).
        exists ((mf, s_mt s, x) :: es). constructor; [|exact IH]. split; [split; [reflexivity|exact R]|exact Q]. }
      apply G. auto. }
    destruct ES as [es ES].
    assert (E2 : Forall2 (entry2 run_cpp o exc inc) (sections m) es) by (clear -ES; induction ES; constructor; tauto).
    assert (KE : map fst es = map (fun ms => (fst ms, s_mt (snd ms))) (sections m)).
    { clear -E2. induction E2 as [|ms e l es [X _] _ IH]; [reflexivity|]. cbn [map]. now rewrite X, IH. }
    assert (N0 : NoDup (map fst ((0, 0, hx) :: es))).
    { cbn [map fst]. constructor; [|now rewrite KE]. rewrite KE. intros I. apply in_map_iff in I as ([mf s] & E & I). cbn [fst snd] in E. inversion E. destruct (SO mf s I) as (N & _). contradiction. }
    assert (C1 : master_read run_cpp has o exc inc (tape_lines t) = Val (dict_of ((0, 0, hx) :: es))).
    { apply (read_tape run_cpp has o exc inc ro W Acc t m); auto. apply Forall_forall. intros [mf s] I. apply (H mf s I). }
    destruct (tape_dict_holds ro t m W St T Em Er L75 ND) as (SP & G1 & HD).
    assert (Q : forall mf mt ls, holds (tape_dict (break_tape t)) mf mt ls -> exists x, In (mf, mt, x) ((0, 0, hx) :: es) /\ py_reads pr has ro wo nofail exc inc mf mt ls x).
    { intros mf mt ls Hd. apply HD in Hd as [(-> & -> & ->)|(s & I & -> & ->)].
      - exists hx. split; [now left|exact Qh].
      - destruct (Forall2_in_l _ _ _ _ ES I) as ([[a b] x] & J & [X _] & Y). cbn [fst snd] in X, Y. inversion X; subst. exists x. split; [now right|exact Y]. }
    destruct (py_mfs pr has ro wo nofail exc inc (tape_dict (break_tape t)) (fun mf mt ls Hd => match Q mf mt ls Hd with ex_intro _ x (conj _ Y) => ex_intro _ x Y end) p) as (d & p' & E & Fd).
    exists d, p', (dict_of ((0, 0, hx) :: es)). split; [unfold parse_tape; now rewrite SP|]. split; [exact C1|].
    intros mf mt x. rewrite holds_dict_of by exact N0. split.
    - intros Hx. destruct (py_holds_inv _ _ _ _ _ _ _ _ _ _ _ _ Fd Hx) as (ls & Hl & R). destruct (Q mf mt ls Hl) as (y & I & R').
      rewrite (py_reads_fun _ _ _ _ _ _ _ _ _ _ _ _ p R R'). exact I.
    - intros I. assert (HL : exists ls, holds (tape_dict (break_tape t)) mf mt ls /\ py_reads pr has ro wo nofail exc inc mf mt ls x).
      { destruct I as [E0|I].
        - inversion E0; subst. exists (map with_break [t_head t]). split; [apply HD; left; auto|exact Qh].
        - destruct (Forall2_in_r _ _ _ _ ES I) as ([mf0 s] & J & [X _] & Y). cbn [fst snd] in X, Y. inversion X; subst.
          exists (map with_break (s_body s)). split; [apply HD; right; exists s; auto|exact Y]. }
      destruct HL as (ls & Hl & R). apply (py_holds _ _ _ _ _ _ _ _ _ _ _ _ Fd); [|exists ls; exact Hl].
      intros ls' y Hl' R'. assert (ls' = ls).
      { apply (holds_lookup _ _ _ _ G1) in Hl, Hl'. congruence. }
      subst ls'. symmetry. exact (py_reads_fun _ _ _ _ _ _ _ _ _ _ _ _ p R R').
  Qed.
End Both.

(** ** Sections that are not parsed *)
Lemma scan_block validate c : forall lines sec rest emf emt, verbatim_scan validate c lines = Val (sec, rest, emf, emt) ->
  exists body, lines = body ++ rest /\ Forall2 copied body sec /\ Forall (in_columns (MF c) (MT c)) body /\
    exists e post, rest = e :: post /\ in_columns emf emt e.
Proof.
  induction lines as [|l r IH]; intros sec rest emf emt H; cbn [verbatim_scan] in H; [discriminate|].
  destruct (cpp_read_line validate c (l :: r)) as [x| |]; cbn [cbind] in H; try discriminate H.
  destruct (drop_cr l) as [line| |] eqn:Ed; cbn [cbind] in H; try discriminate H.
  destruct (substr_int line 70 2) as [cmf| |] eqn:E1; cbn [cbind] in H; try discriminate H.
  destruct (substr_int line 72 3) as [cmt| |] eqn:E2; cbn [cbind] in H; try discriminate H.
  assert (Hd : (l = line \/ l = line ++ [carriage_return]) /\ line <> []).
  { unfold drop_cr in Ed. destruct l as [|a l]; [discriminate|]. destruct (chr_eqb (last (a :: l) zero_chr) carriage_return) eqn:X; inversion Ed; subst.
    - apply chr_eqb_eq in X. split; [right; rewrite <- X; apply app_removelast_last; discriminate|].
      intros Y. rewrite Y in E1. discriminate E1.
    - split; [now left|discriminate]. }
  assert (Hc : in_columns cmf cmt l).
  { exists line. split; [apply Hd|]. unfold substr_int in E1, E2. destruct (length line <? 70)%nat; [discriminate|]. destruct (length line <? 72)%nat; [discriminate|]. auto. }
  destruct (negb (cmf =? MF c) || negb (cmt =? MT c)) eqn:B.
  - inversion H; subst. exists []. split; [reflexivity|]. split; [constructor|]. split; [constructor|]. eauto.
  - apply orb_false_iff in B as [B1 B2]. apply negb_false_iff, Z.eqb_eq in B1. apply negb_false_iff, Z.eqb_eq in B2. subst.
    destruct (verbatim_scan validate c r) as [[[[s1 r1] f1] t1]| |] eqn:E; cbn [cbind] in H; try discriminate H.
    inversion H; subst. destruct (IH _ _ _ _ eq_refl) as (body & -> & F & G & K).
    exists (l :: body). split; [reflexivity|]. split; [|split; [|exact K]]; (constructor; [|assumption]).
    + exists line. split; [apply Hd|reflexivity].
    + exact Hc.
Qed.

Section Block.
  Context {D : Type}.
  Variable run_cpp : Z -> Z -> list str -> cpp (D * list str).
  Variable has : Z -> Z -> bool.
  Variable o : croopts.
  Variables exc inc : selection.
  Hypothesis Suf : forall mf mt lines d rest, run_cpp mf mt lines = Val (d, rest) -> exists used, lines = used ++ rest.

  Definition block (all : list str) (mf mt : Z) (ls : list str) : Prop :=
    exists pre body post, all = pre ++ body ++ post /\ Forall2 copied body ls /\ Forall (in_columns mf mt) body /\
      (has mf mt = true -> mt <> 0 -> exists e post', post = e :: post' /\ in_columns mf 0 e).
  Definition blocks (all : list str) (d : mfdic (section D)) : Prop :=
    is_dict2 d /\ forall mf mt ls, lookup2 d mf mt = Some (Raw ls) -> block all mf mt ls.

  Lemma verbatim_block validate c is_first lines sec rest : read_section_verbatim validate c is_first lines = Val (sec, rest) ->
    exists body post, lines = body ++ post /\ (exists used, lines = used ++ rest) /\ Forall2 copied body sec /\ Forall (in_columns (MF c) (MT c)) body /\
      (is_first = false -> exists e post', post = e :: post' /\ in_columns (MF c) 0 e).
  Proof.
    unfold read_section_verbatim. intros H. destruct (verbatim_scan validate c lines) as [[[[s r] f] t]| |] eqn:E; cbn [cbind] in H; try discriminate H.
    destruct (scan_block _ _ _ _ _ _ _ E) as (body & El & F & G & e & post & K1 & K2). exists body, r.
    destruct (negb is_first && _) eqn:B; [discriminate|]. split; [exact El|].
    assert (K : is_first = false -> exists e post', r = e :: post' /\ in_columns (MF c) 0 e).
    { intros ->. cbn [negb andb] in B. apply orb_false_iff in B as [B1 B2]. apply negb_false_iff, Z.eqb_eq in B1. apply negb_false_iff, Z.eqb_eq in B2.
      rewrite B1, B2 in K2. eauto. }
    destruct is_first; [destruct s; [discriminate|]|]; inversion H; subst; (split; [|split; [|split]; assumption]).
    - exists body. exact eq_refl.
    - exists (body ++ [e]). cbn [tl]. rewrite <- app_assoc; reflexivity.
  Qed.

  Lemma turn_blocks all st l r rest st' : (exists pre, all = pre ++ l :: r) -> blocks all (rs_dict st) ->
    read_turn run_cpp has o exc inc st l r = Val (rest, st') -> (exists pre, all = pre ++ rest) /\ blocks all (rs_dict st').
  Proof.
    intros [pre Ea] [Bd B] H. unfold read_turn in H.
    destruct (cpp_read_mat_number l) as [mat| |]; cbn [cbind] in H; try discriminate H.
    destruct (cpp_read_mf_number l) as [mf| |]; cbn [cbind] in H; try discriminate H.
    destruct (cpp_read_mt_number l) as [mt| |]; cbn [cbind] in H; try discriminate H.
    assert (next : exists pre0, all = pre0 ++ r) by (exists (pre ++ [l]); rewrite <- app_assoc; exact Ea).
    destruct (has mf mt && _) eqn:HR.
    - destruct (check_end_records _ _ _ _ _ _ _ _) as [u| |]; cbn [cbind] in H; try discriminate H.
      destruct (should_parse_section mf mt exc inc).
      + destruct (run_cpp mf mt (l :: r)) as [[d rest1]| |] eqn:R; cbn [cbind] in H; try discriminate H. inversion H; subst rest1 st'.
        destruct (Suf _ _ _ _ _ R) as [used Eu]. split; [exists (pre ++ used); rewrite <- app_assoc, <- Eu; exact Ea|]. cbn [turn rs_dict]. split; [now apply dict_set|].
        intros mf' mt' ls. rewrite lookup_set. destruct ((mf' =? mf) && (mt' =? mt)); [intros X; discriminate X|apply B].
      + destruct (read_section_verbatim _ _ _ _) as [[sec rest1]| |] eqn:R; cbn [cbind] in H; try discriminate H. inversion H; subst rest1 st'.
        destruct (verbatim_block _ _ _ _ _ _ R) as (body & post & El & [used Eu] & F & G & K).
        split; [exists (pre ++ used); rewrite <- app_assoc, <- Eu; exact Ea|]. cbn [turn rs_dict]. split; [now apply dict_set|].
        intros mf' mt' ls. rewrite lookup_set. destruct (Z.eqb_spec mf' mf) as [->|]; destruct (Z.eqb_spec mt' mt) as [->|]; cbn [andb]; try apply B.
        intros X; injection X as <-. exists pre, body, post. rewrite <- El. split; [exact Ea|]. split; [exact F|]. split; [exact G|].
        intros _ NT. apply K. destruct (Z.eqb_spec mt 0); [contradiction|]. apply andb_false_r.
    - destruct (negb (mf =? 0) && negb (mt =? 0)).
      + destruct (read_section_verbatim _ _ _ _) as [[sec rest1]| |] eqn:R; cbn [cbind] in H; try discriminate H. inversion H; subst rest1 st'.
        destruct (verbatim_block _ _ _ _ _ _ R) as (body & post & El & [used Eu] & F & G & K).
        split; [exists (pre ++ l :: used); rewrite <- app_assoc; cbn [app]; rewrite <- Eu; exact Ea|]. cbn [turn rs_dict]. split; [now apply dict_set|].
        intros mf' mt' ls. rewrite lookup_set. destruct (Z.eqb_spec mf' mf) as [->|]; destruct (Z.eqb_spec mt' mt) as [->|]; cbn [andb]; try apply B.
        intros X; injection X as <-. exists (pre ++ [l]), body, post. rewrite <- El, <- app_assoc. split; [exact Ea|]. split; [exact F|]. split; [exact G|].
        intros HM NT. exfalso. rewrite HM in HR. destruct (Z.eqb_spec mt 0); [contradiction|]. rewrite andb_false_r in HR. discriminate HR.
      + destruct (all_spaces l).
        { destruct (cr_blank o); [|discriminate]. inversion H; subst. split; [exact next|split; assumption]. }
        destruct (if rs_mend st then _ else _) as [b1| |]; cbn [cbind] in H; try discriminate H. destruct b1; [inversion H; subst; split; [exact next|split; assumption]|].
        destruct (if rs_fend st then _ else _) as [b2| |]; cbn [cbind] in H; try discriminate H. destruct b2; [inversion H; subst; split; [exact next|split; assumption]|].
        destruct (cpp_is_fend_record _ _ _ _) as [b3| |]; cbn [cbind] in H; try discriminate H. destruct b3; [inversion H; subst; split; [exact next|split; assumption]|discriminate].
  Qed.
  Lemma loop_blocks all : forall n st lines d, (exists pre, all = pre ++ lines) -> blocks all (rs_dict st) ->
    read_loop run_cpp has o exc inc n st lines = Val d -> blocks all d.
  Proof.
    induction n as [|n IH]; intros st lines d A B H; destruct lines as [|l r]; cbn [read_loop] in H; try discriminate H;
      try (inversion H; subst; exact B).
    destruct (read_turn run_cpp has o exc inc st l r) as [[rest st']| |] eqn:E; cbn [cbind] in H; try discriminate H.
    destruct (turn_blocks all st l r rest st' A B E) as [A' B']. exact (IH _ _ _ A' B' H).
  Qed.
  Lemma read_blocks lines d mf mt ls : master_read run_cpp has o exc inc lines = Val d -> holds d mf mt (Raw ls) -> block lines mf mt ls.
  Proof.
    intros H Hl. assert (B : blocks lines d).
    { apply (loop_blocks lines (length lines) read_start lines); [exists []; reflexivity| |exact H].
      split; [split; [constructor|intros ? ? []]|]. intros ? ? ? X. discriminate X. }
    destruct B as [Bd B]. apply B. now apply holds_lookup.
  Qed.
End Block.

(** ** End records *)
Lemma fend_control accept validate mat l : cpp_is_fend_record accept validate mat l = Val true ->
  exists m, cpp_control {| MAT := m; MF := 0; MT := 0 |} l.
Proof.
  unfold cpp_is_fend_record. intros H. destruct (cpp_read_mat_number l) as [m| |] eqn:E1; try discriminate H. cbn [cbind] in H.
  destruct (negb (mat =? m) && validate); [discriminate|].
  destruct (cpp_read_mf_number l) as [mf| |] eqn:E2; try discriminate H. cbn [cbind] in H.
  destruct (cpp_read_mt_number l) as [mt| |] eqn:E3; try discriminate H. cbn [cbind] in H.
  destruct (cpp_read_float_field accept l 0); try discriminate H. cbn [cbind] in H.
  destruct (cpp_read_float_field accept l 1); try discriminate H. cbn [cbind] in H.
  do 4 (destruct (cpp_read_int_field l _) in H; try discriminate H; cbn [cbind] in H).
  injection H as H. rewrite !andb_true_iff in H. destruct H as [[_ A] B]. apply Z.eqb_eq in A, B. subst. exists m. repeat split; assumption.
Qed.
Lemma mend_control accept validate l : cpp_is_mend_record accept validate l = Val true -> cpp_control {| MAT := 0; MF := 0; MT := 0 |} l.
Proof.
  unfold cpp_is_mend_record. intros H. destruct (cpp_read_mat_number l) as [m| |] eqn:E1; try discriminate H. cbn [cbind] in H.
  destruct (cpp_is_fend_record _ _ _ _) as [[]| |] eqn:E; try discriminate H. cbn [cbind andb] in H. injection H as H. apply Z.eqb_eq in H. subst m.
  apply fend_control in E as (m & A & B & C). repeat split; assumption.
Qed.
Lemma tend_control accept validate l : cpp_is_tend_record accept validate l = Val true -> cpp_control {| MAT := -1; MF := 0; MT := 0 |} l.
Proof.
  unfold cpp_is_tend_record. intros H. destruct (cpp_read_mat_number l) as [m| |] eqn:E1; try discriminate H. cbn [cbind] in H.
  destruct (cpp_is_fend_record _ _ _ _) as [[]| |] eqn:E; try discriminate H. cbn [cbind andb] in H. injection H as H. apply Z.eqb_eq in H. subst m.
  apply fend_control in E as (m & A & B & C). repeat split; assumption.
Qed.

(** ** Refusals *)
Lemma missing_head {D} (run_cpp : Z -> Z -> list str -> cpp (D * list str)) has o exc inc c l r :
  cpp_control c l -> MF c <> 0 -> has (MF c) (MT c) = true -> cr_tpid o = false ->
  master_read run_cpp has o exc inc (l :: r) = Throw.
Proof.
  intros (A1 & A2 & A3) N H T. unfold master_read. cbn [length read_loop]. unfold read_turn. rewrite A1, A2, A3. cbn [cbind].
  rewrite H. destruct (Z.eqb_spec (MF c) 0); [contradiction|]. cbn [andb negb orb read_start rs_first rs_fend rs_mend rs_tend rs_last rs_seen rs_dict rs_tpid].
  unfold check_end_records. cbn [andb orb negb]. rewrite !andb_false_r, T. reflexivity.
Qed.

Lemma second_material {D} (run_cpp : Z -> Z -> list str -> cpp (D * list str)) has o exc inc ro head m c l r head_x es :
  r_width ro = 11%nat -> cr_accept o = r_spaces ro -> cr_send o = false ->
  (exists mat, carries (r_width ro) head mat 0 0) -> material_ok ro m -> Forall plain_line (head :: material_lines m) ->
  Forall (fun f => plain_end (r_spaces ro) (f_fend f)) (m_files m) -> plain_end (r_spaces ro) (m_mend m) ->
  has 0 0 = true -> Forall (fun ms => has (fst ms) (s_mt (snd ms)) = true) (sections m) ->
  reads run_cpp o exc inc 0 0 [head] [] head_x -> Forall2 (entry2 run_cpp o exc inc) (sections m) es ->
  cpp_control c l -> MF c <> 0 -> has (MF c) (MT c) = true ->
  master_read run_cpp has o exc inc (head :: material_lines m ++ l :: r) = Throw.
Proof.
  intros W Acc Sd (hm & Ch) (Nm & NE & F & Ee) P PF PM H0 H Rh Es (B1 & B2 & B3) Nc Hc.
  unfold master_read. apply Forall_cons_iff in P as [Ph P]. unfold material_lines in *. apply Forall_app in P as [P Pm]. apply Forall_cons_iff in Pm as [Pm _].
  rewrite <- app_assoc. cbn [app]. cbn [length]. cbn [read_loop].
  assert (HD : exists l r mf mt, concat (map file_lines (m_files m)) = l :: r /\ carries (r_width ro) l (m_mat m) mf mt /\ mf <> 0 /\ plain_line l).
  { destruct (m_files m) as [|f fs]; [contradiction|]. apply Forall_cons_iff in F as [(Nf & NEs & Fs & _) _].
    cbn [map concat] in P |- *. unfold file_lines in P |- *. destruct (f_secs f) as [|s ss]; [contradiction|]. apply Forall_cons_iff in Fs as [(_ & NEb & Cb & _) _].
    cbn [map concat] in P |- *. unfold section_lines in P |- *. destruct (s_body s) as [|x b]; [contradiction|]. apply Forall_cons_iff in Cb as [Cb _].
    cbn [app] in P |- *. apply Forall_cons_iff in P as [P _]. eexists _, _, (f_mf f), (s_mt s). split; [reflexivity|]. auto. }
  destruct HD as (l1 & r1 & mf & mt & El & Cl & Nf & Pl).
  rewrite El. cbn [app]. rewrite (head_turn run_cpp has o exc inc ro W head l1 _ hm mf mt (m_mat m) head_x) by auto. cbn [cbind].
  change (l1 :: r1 ++ m_mend m :: l :: r) with ((l1 :: r1) ++ m_mend m :: l :: r). rewrite <- El in *. clear l1 r1 El Cl Pl.
  assert (FF : Forall (file_fine has ro) (m_files m)).
  { apply Forall_forall. intros f I. rewrite Forall_forall in PF, H. split; [|split].
    - apply Forall_forall. intros s Is. apply (H (f_mf f, s)). unfold sections. apply in_concat. eexists. split; [apply in_map; exact I|]. now apply in_map.
    - apply Forall_concat in P. rewrite Forall_map in P. rewrite Forall_forall in P. auto.
    - auto. }
  destruct (loop_files1 run_cpp has o exc inc ro W Acc (m_mat m) (m_files m) es (m_mend m :: l :: r) (turn 0 true true false false false (dic_set [] 0 0 head_x))
    (length (concat (map file_lines (m_files m)) ++ m_mend m :: l :: r)) (inv_turn _ _) (or_introl NE) F FF Es (le_n _)) as (n' & st' & Ln & Bh & Dd & Lp).
  rewrite Lp. destruct Bh as (a & b & cc & d & e & f & g). cbn [length] in Ln. destruct n' as [|[|n']]; try lia. cbn [read_loop].
  assert (T1 : read_turn run_cpp has o exc inc st' (m_mend m) (l :: r) = Val (l :: r, turn 0 true true true true false (rs_dict st'))).
  { pose proof Ee as (NB & C & _). destruct (plain_control ro _ _ _ _ W Pm C) as ((A1 & A2 & A3) & _). cbn [mkctrl MAT MF MT] in A1, A2, A3.
    unfold read_turn. rewrite A1, A2, A3. cbn [cbind Z.eqb andb negb orb]. rewrite a, andb_false_r.
    rewrite (not_spaces _ NB), cc, e. cbn [cbind]. rewrite Acc, (end_is_mend ro _ _) by auto. cbn [cbind]. now rewrite b, d, g. }
  rewrite T1. cbn [cbind read_loop]. unfold read_turn. rewrite B1, B2, B3. cbn [cbind]. rewrite Hc.
  destruct (Z.eqb_spec (MF c) 0); [contradiction|]. cbn [andb negb orb turn rs_fend rs_mend rs_tend]. unfold check_end_records. rewrite Sd. reflexivity.
Qed.

(** The same from what the recipes do. *)
Lemma second_material_thm {D} (run_cpp : Z -> Z -> list str -> cpp (D * list str)) has o exc inc ro head m c l r :
  r_width ro = 11%nat -> cr_accept o = r_spaces ro -> cr_send o = false -> cr_validate o = false ->
  (exists mat, carries 11 head mat 0 0) -> material_ok ro m -> Forall plain_line (head :: material_lines m) ->
  Forall (fun f => plain_end (r_spaces ro) (f_fend f)) (m_files m) -> plain_end (r_spaces ro) (m_mend m) ->
  has 0 0 = true -> (forall mf s, In (mf, s) (sections m) -> has mf (s_mt s) = true) ->
  (selected exc inc 0 0 -> exists d, forall rest, run_cpp 0 0 (head :: rest) = Val (d, rest)) ->
  (forall mf s, In (mf, s) (sections m) -> selected exc inc mf (s_mt s) ->
     exists d, forall rest, run_cpp mf (s_mt s) (s_body s ++ s_send s :: rest) = Val (d, rest)) ->
  cpp_control c l -> MF c <> 0 -> has (MF c) (MT c) = true ->
  master_read run_cpp has o exc inc (head :: material_lines m ++ l :: r) = Throw.
Proof.
  intros W Acc Sd V Ch M P PF PM H0 H R0 R B Nc Hc.
  assert (G : forall mf mt body ends, (selected exc inc mf mt -> exists d, forall rest, run_cpp mf mt (body ++ ends ++ rest) = Val (d, rest)) ->
    exists x, reads run_cpp o exc inc mf mt body ends x).
  { intros mf mt body ends X. destruct (should_skip_section mf mt exc inc) eqn:Sk.
    - exists (Raw (map with_break body)). right. rewrite selection_same, Sk. auto.
    - destruct (X (proj2 (selected_iff mf mt exc inc) Sk)) as [d E]. exists (Parsed d). left. rewrite selection_same, Sk. split; [reflexivity|]. exists d. auto. }
  destruct (G 0 0 [head] [] R0) as [hx Rh].
  assert (ES : exists es, Forall2 (entry2 run_cpp o exc inc) (sections m) es).
  { revert R. clear -G. induction (sections m) as [|[mf s] ss IH]; intros R; [exists []; constructor|].
    destruct IH as [es IH]; [intros; apply R; [now right|assumption]|].
    destruct (G mf (s_mt s) (s_body s) [s_send s] (R mf s (or_introl eq_refl))) as [x X].
    exists ((mf, s_mt s, x) :: es). constructor; [split; [reflexivity|exact X]|exact IH]. }
  destruct ES as [es Es].
  eapply (second_material run_cpp has o exc inc ro head m c l r hx es); auto; [rewrite W; exact Ch|].
  apply Forall_forall. intros [mf s] I. exact (H mf s I).
Qed.

(** ** Ranges by computation *)
Lemma range_by_value accept s f : number_field s -> endfstr2float accept s = Val f -> field_in_range accept s.
Proof.
  intros N E t neg m e T F. pose proof (fortran_text_nonneg t neg m e T) as Hm.
  rewrite (cpp_float_text _ t s neg m e) in E by (auto; now apply field_spaced).
  assert (Dec : in_double_range m e \/ ~ in_double_range m e).
  { destruct (Z.eq_dec m 0) as [->|]; [left; now left|]. unfold in_double_range.
    destruct (QArith_base.Qlt_le_dec (decimalQ m e) (QArith_base.Qpower (QArith_base.inject_Z 2) (-1022))) as [A|A].
    - right. intros [X|[X _]]; [contradiction|]. now apply (QArith_base.Qlt_not_le _ _ A).
    - destruct (QArith_base.Qlt_le_dec (decimalQ m e) overflow_threshold) as [B|B]; [left; right; auto|].
      right. intros [X|[_ X]]; [contradiction|]. now apply (QArith_base.Qlt_not_le _ _ X). }
  destruct Dec as [X|X]; [exact X|]. rewrite (cpp_value_out_of_range neg m e Hm X) in E. discriminate.
Qed.
