(** The numbers of a LIST or a table read by the C++ templates and by Python (C50). *)
From Coq Require Import Ascii String ZArith QArith Bool Lia List.
From Coq Require Import Floats.SpecFloat.
From Verif Require Import PyBase ProofPyBase PyFloat ProofFloat ModelFortran ModelRecords ModelTape
  SpecFields ProofFields SpecFloat ProofFloatText ProofAccept ProofRecords ModelCpp SpecCpp ProofCpp.
Import ListNotations.
Open Scope Z_scope.

(** the fields of one line *)
Lemma vec_line {A} (rd : str -> nat -> cpp A) line m : forall n j lines vs, (0 < m)%nat -> (n = 0 \/ j + m = 6)%nat -> (j + m <= 6)%nat ->
  Forall2 (fun i v => rd line i = Val v) (seq j m) vs ->
  cpp_read_vec_loop rd (m + n) line j lines =
  match n with
  | O => Val (vs, lines)
  | S _ => let* (ws, rest) := cpp_read_vec rd n lines in Val (vs ++ ws, rest)
  end.
Proof.
  induction m as [|m IH]; intros n j lines vs P N L F; [lia|].
  cbn [seq] in F. inversion F as [|? v ? vs' Hv F']; subst. cbn [plus cpp_read_vec_loop]. rewrite Hv.
  destruct m as [|m].
  - cbn [seq] in F'. inversion F'; subst. cbn [plus]. destruct n as [|n].
    + rewrite andb_false_r. cbn [cpp_read_vec_loop]. reflexivity.
    + replace (5 <? S j)%nat with true by (symmetry; apply Nat.ltb_lt; lia).
      change (0 <? S n)%nat with true. cbn [andb]. unfold cpp_read_vec. destruct lines as [|l r]; [reflexivity|].
      cbn [cbind]. destruct (cpp_read_vec_loop rd (S n) l 0 r) as [[ws rest]| |]; reflexivity.
  - replace (5 <? S j)%nat with false by (symmetry; apply Nat.ltb_ge; lia). cbn [andb cbind].
    rewrite (IH n (S j) lines vs') by (try lia; auto).
    destruct n as [|n]; [reflexivity|]. destruct (cpp_read_vec rd (S n) lines) as [[ws rest]| |]; reflexivity.
Qed.

Lemma skipn_nth {A} (l : list A) n x : nth_error l n = Some x -> skipn n l = x :: skipn (S n) l.
Proof.
  revert n; induction l as [|y l IH]; intros [|n] H; try discriminate; cbn in H |- *; [congruence|]. now rewrite (IH n H).
Qed.

(** all of them: [rd] reads every field that Python reads as [v] as [g v] *)
Lemma vec_same {A} (rd : str -> nat -> cpp A) (g : num -> A) ro lines : r_width ro = 11%nat ->
  forall fuel num ofs vals ofs', 0 < num -> (Z.to_nat num <= fuel)%nat ->
  (forall k v, (k < Z.to_nat num)%nat -> (ofs + k / 6 < length lines)%nat ->
     read_fort_float ro (field_no lines ofs k) = Ok v -> rd (nth (ofs + k / 6) lines []) (k mod 6)%nat = Val (g v)) ->
  read_numbers_loop ro fuel lines num ofs = Ok (vals, ofs') ->
  cpp_read_vec rd (Z.to_nat num) (skipn ofs lines) = Val (map g vals, skipn ofs' lines).
Proof.
  intros W. induction fuel as [|fuel IH]; intros num ofs vals ofs' P Fu R H; [lia|].
  cbn [read_numbers_loop] in H. replace (num <=? 0) with false in H by (symmetry; apply Z.leb_gt; lia).
  destruct (get_line lines ofs) as [l|e] eqn:G; cbn [bind] in H; [|discriminate H].
  assert (G' : nth_error lines ofs = Some l) by (unfold get_line in G; destruct (nth_error lines ofs); congruence).
  destruct (read_fort_floats ro l (Z.to_nat (Z.min 6 num))) as [vs|e] eqn:V; [|cbn [bind] in H; discriminate H]. cbn [bind] in H.
  destruct (read_numbers_loop ro fuel lines (num - 6) (S ofs)) as [[rest o]|e] eqn:L; [|cbn [bind] in H; discriminate H].
  cbn [bind] in H. inversion H; subst vals o. clear H.
  assert (LO : (ofs < length lines)%nat) by (apply nth_error_Some; congruence).
  assert (NL : nth ofs lines [] = l) by (apply nth_error_nth; auto).
  rewrite (skipn_nth _ _ _ G'). cbn [cpp_read_vec].
  set (m := Z.to_nat (Z.min 6 num)) in *.
  replace (Z.to_nat num) with (m + Z.to_nat (num - 6))%nat by (unfold m; lia).
  assert (FV : Forall2 (fun i v => rd l i = Val v) (seq 0 m) (map g vs)).
  { unfold read_fort_floats in V. apply mapM_Forall2 in V. rewrite W in V.
    assert (K : forall i v, (i < m)%nat -> read_fort_float ro (slice (i * 11) (i * 11 + 11) l) = Ok v -> rd l i = Val (g v)).
    { intros i v Hi Hv. pose proof (R i v) as RR. unfold field_no in RR.
      rewrite Nat.div_small, Nat.mod_small, Nat.add_0_r, NL in RR by (unfold m in Hi; lia). apply RR; auto; unfold m in Hi; lia. }
    assert (K2 : forall a n ws, (a + n <= m)%nat ->
        Forall2 (fun x y => read_fort_float ro (slice (x * 11) (x * 11 + 11) l) = Ok y) (seq a n) ws ->
        Forall2 (fun i v => rd l i = Val v) (seq a n) (map g ws)).
    { intros a n; revert a; induction n as [|n IHn]; intros a ws Ha Hf; cbn [seq] in *; inversion Hf; subst; cbn [map]; constructor;
        [apply K; auto; lia | apply IHn; auto; lia]. }
    apply K2; auto. }
  rewrite (vec_line rd l m (Z.to_nat (num - 6)) 0 (skipn (S ofs) lines) (map g vs)) by (auto; unfold m; lia).
  destruct (Z.leb_spec num 6) as [S6|B6].
  - replace (Z.to_nat (num - 6)) with 0%nat by lia.
    destruct fuel as [|fuel']; cbn [read_numbers_loop] in L.
    + inversion L; subst. now rewrite app_nil_r.
    + replace (num - 6 <=? 0) with true in L by (symmetry; apply Z.leb_le; lia). inversion L; subst. now rewrite app_nil_r.
  - assert (E : cpp_read_vec rd (Z.to_nat (num - 6)) (skipn (S ofs) lines) = Val (map g rest, skipn ofs' lines)).
    { apply (IH (num - 6) (S ofs) rest ofs'); auto; try lia. intros k v Hk Ho Hv.
      pose proof (R (1 * 6 + k)%nat v) as RR. unfold field_no in *.
      rewrite Nat.div_add_l in RR by lia. rewrite (Nat.add_comm (1 * 6) k), Nat.mod_add in RR by lia.
      replace (ofs + (1 + k / 6))%nat with (S ofs + k / 6)%nat in RR by lia. apply RR; auto; lia. }
    rewrite E. destruct (Z.to_nat (num - 6)) eqn:Z6; [lia|]. now rewrite map_app.
Qed.

Lemma length_slice11 i (l : str) : (length (slice (i * 11) (i * 11 + 11) l) <= 11)%nat.
Proof. rewrite length_slice. lia. Qed.

(** real numbers *)
Lemma float_vector ro (lines : list str) num ofs vals ofs' : r_width ro = 11%nat -> 0 < num ->
  (forall l : str, In l lines -> (66 <= length l)%nat) ->
  (forall k, (k < Z.to_nat num)%nat -> number_field (field_no lines ofs k) /\ field_in_range (r_spaces ro) (field_no lines ofs k)) ->
  read_endf_numbers ro false lines num ofs = Ok (vals, ofs') ->
  cpp_read_vec (cpp_read_float_field (r_spaces ro)) (Z.to_nat num) (skipn ofs lines) = Val (map double_of vals, skipn ofs' lines).
Proof.
  intros W P LL R H. unfold read_endf_numbers in H.
  destruct (read_numbers_loop ro (Z.to_nat num) lines num ofs) as [[vs o]|e] eqn:L; [|cbn [bind] in H; discriminate H].
  cbn [bind] in H. inversion H; subst vs o. clear H.
  apply (vec_same _ _ ro lines W (Z.to_nat num)); auto. intros k v Hk Ho Hv.
  destruct (R k Hk) as [N I]. unfold cpp_read_float_field, cfield.
  assert (B : (k mod 6 < 6)%nat) by (apply Nat.mod_upper_bound; lia).
  pose proof (LL (nth (ofs + k / 6) lines []) (nth_In _ _ Ho)) as L66.
  assert (LE : (11 * (k mod 6) + 11 <= length (nth (ofs + k / 6) lines []))%nat) by (eapply Nat.le_trans; [|exact L66]; lia).
  rewrite (proj2 (Nat.ltb_ge _ _) LE).
  rewrite (Nat.mul_comm 11 (k mod 6)). unfold field_no in *.
  destruct (float_field_same ro _ v W (length_slice11 _ _) N Hv) as (f & -> & [(_ & -> & E)|(t & neg & m & e & T & F & -> & E & _)]).
  - rewrite E. destruct (r_preserve ro && _); reflexivity.
  - rewrite (E (I t neg m e T F)). destruct (r_preserve ro && _); reflexivity.
Qed.

(** a field that is an integer is the same number for both ways of reading it *)
Lemma int_as_float ro s z v : r_width ro = 11%nat -> (length s <= 11)%nat -> number_field s ->
  read_fort_int s = Ok z -> read_fort_float ro s = Ok v -> int32 z -> to_int1 v = Ok (NInt z) /\ num_trunc v = z.
Proof.
  intros W L N H F R32. unfold read_fort_int in H. destruct (is_blank s) eqn:B.
  { inversion H; subst z. apply blank_iff in B. rewrite read_blank_field in F by (auto; lia). inversion F; subst v. split; reflexivity. }
  destruct (int_of_str s) as [z'|] eqn:E; [|discriminate]. inversion H; subst z'. clear H B.
  unfold int_of_str in E. destruct (strip_decomp s) as (w1 & w2 & W1 & W2 & Es).
  assert (Nt : number_field (strip s)).
  { eapply number_field_sub; [exact N|]. intros c I. rewrite Es. apply in_or_app; right. apply in_or_app; now left. }
  destruct (take_sign (strip s)) as [neg d] eqn:T.
  assert (Nd : number_field d).
  { eapply number_field_sub; [exact Nt|]. intros c I.
    apply take_sign_inv in T as [[_ T]|[_ [T|T]]]; rewrite T; auto; now right. }
  unfold us_ok in E. rewrite number_us, number_drop_us in E by auto. cbn [negb] in E.
  assert (H' : d <> [] /\ exists x, digits_val_acc d 0 = Some x /\ z = if neg then - x else x).
  { destruct d as [|c0 d0]; [discriminate|]. split; [discriminate|].
    destruct (digits_val_acc (c0 :: d0) 0) as [x|] eqn:V; [|discriminate]. inversion E. eauto. }
  destruct H' as [ND (x & V & Ez)].
  assert (D : all_digits d) by (eapply digits_val_acc_digits; exact V).
  assert (Dx : x = digits_value d) by (rewrite <- dval_digits by auto; unfold dval; now rewrite V).
  assert (TX : fortran_text (strip s) neg x 0).
  { exists (match strip s with c :: _ => if is_digit c then [] else [c] | [] => [] end), d, [], [], false, [], 0.
    rewrite !app_nil_r. repeat split; auto; try (intros ? []).
    - apply take_sign_inv in T as [[-> T]|[-> [T|T]]]; rewrite T.
      + reflexivity.
      + reflexivity.
      + destruct d as [|c d]; [contradiction|]. inversion D; subst. now rewrite H1.
    - apply take_sign_inv in T as [[-> T]|[-> [T|T]]]; rewrite T; cbn; auto.
      destruct d as [|c d]; [contradiction|]. inversion D; subst. rewrite H1. auto.
    - now apply digit_string_all.
    - constructor.
  }
  pose proof (fortran_text_nonneg _ _ _ _ TX) as X0.
  rewrite (read_fortran ro s (strip s) neg x 0) in F; auto; [|lia|].
  2:{ destruct (r_spaces ro).
      - exists [], []. rewrite app_nil_r. split; [constructor|]. split; [constructor|]. cbn [app].
        destruct (fortran_text_fstr _ _ _ _ TX) as [FS _].
        assert (S1 : only_spaces w1).
        { apply ws_only_spaces; auto. eapply number_field_sub; [exact N|]. intros c I. rewrite Es. apply in_or_app; now left. }
        assert (S2 : only_spaces w2).
        { apply ws_only_spaces; auto. eapply number_field_sub; [exact N|]. intros c I. rewrite Es. apply in_or_app; right. apply in_or_app; now right. }
        assert (RS : forall w, only_spaces w -> remove_chr " "%char w = []).
        { induction w as [|c w IHw]; intros Hw; [reflexivity|]. unfold remove_chr in *. cbn. rewrite (Hw c) by now left. cbn.
          apply IHw. intros y I. apply Hw. now right. }
        transitivity (remove_chr " "%char (w1 ++ strip s ++ w2)); [now rewrite <- Es|].
        assert (RA : forall x y, remove_chr " "%char (x ++ y) = remove_chr " "%char x ++ remove_chr " "%char y)
          by (intros; unfold remove_chr; apply filter_app).
        rewrite !RA, (RS w1 S1), (RS w2 S2), app_nil_r. cbn [app]. now apply remove_space_fstr.
      - exists w1, w2. auto. }
  assert (X53 : 0 <= x <= 2 ^ 53).
  { unfold int32 in R32. replace (2 ^ 53) with 9007199254740992 by reflexivity.
    change (2 ^ 31) with 2147483648 in R32. destruct neg; lia. }
  assert (dec_num x 0 = x) as E1 by (unfold dec_num; cbn; lia).
  rewrite E1 in F. change (dec_den 0) with 1 in F.
  set (f := round64 neg x 1) in *.
  destruct (round64_int neg x X53) as [Fin Vf]. fold f in Fin, Vf.
  assert (V' : (val f == inject_Z z)%Q).
  { rewrite Vf, Ez. unfold sgnQ. destruct neg; [rewrite inject_Z_opp; ring|ring]. }
  destruct (val_iz_trunc f z Fin V') as [Q _].
  assert (TT : num_trunc v = z /\ num_finite v = true).
  { destruct (r_preserve ro); inversion F; subst v; split; auto. }
  destruct TT as [Tv Fv]. split; auto.
  unfold to_int1. rewrite Tv. destruct v as [|g|g]; auto; destruct g; auto; discriminate.
Qed.

(** the numbers read are those of the fields *)
Lemma loop_fields ro lines : r_width ro = 11%nat -> forall fuel num ofs vals ofs', (Z.to_nat num <= fuel)%nat ->
  read_numbers_loop ro fuel lines num ofs = Ok (vals, ofs') ->
  Forall2 (fun k v => read_fort_float ro (field_no lines ofs k) = Ok v) (seq 0 (Z.to_nat num)) vals.
Proof.
  intros W. induction fuel as [|fuel IH]; intros num ofs vals ofs' Fu H.
  { cbn in H. inversion H; subst. replace (Z.to_nat num) with 0%nat by lia. constructor. }
  cbn [read_numbers_loop] in H. destruct (Z.leb_spec num 0) as [N|P].
  { inversion H; subst. replace (Z.to_nat num) with 0%nat by lia. constructor. }
  destruct (get_line lines ofs) as [l|e] eqn:G; cbn [bind] in H; [|discriminate H].
  assert (G' : nth_error lines ofs = Some l) by (unfold get_line in G; destruct (nth_error lines ofs); congruence).
  destruct (read_fort_floats ro l (Z.to_nat (Z.min 6 num))) as [vs|e] eqn:V; [|cbn [bind] in H; discriminate H]. cbn [bind] in H.
  destruct (read_numbers_loop ro fuel lines (num - 6) (S ofs)) as [[rest o]|e] eqn:L; [|cbn [bind] in H; discriminate H].
  cbn [bind] in H. inversion H; subst vals o. clear H.
  assert (NL : nth ofs lines [] = l) by (apply nth_error_nth; auto).
  set (m := Z.to_nat (Z.min 6 num)) in *.
  replace (Z.to_nat num) with (m + Z.to_nat (num - 6))%nat by (unfold m; lia).
  rewrite seq_app. apply Forall2_app.
  - unfold read_fort_floats in V. apply mapM_Forall2 in V. rewrite W in V.
    assert (K2 : forall a n ws, (a + n <= m)%nat ->
       Forall2 (fun x y => read_fort_float ro (slice (x * 11) (x * 11 + 11) l) = Ok y) (seq a n) ws ->
       Forall2 (fun k v => read_fort_float ro (field_no lines ofs k) = Ok v) (seq a n) ws).
    { intros a n; revert a; induction n as [|n IHn]; intros a ws Ha Hf; cbn [seq] in *; inversion_clear Hf; constructor.
      - unfold field_no. rewrite Nat.div_small, Nat.mod_small, Nat.add_0_r, NL by (unfold m in Ha; lia). auto.
      - apply IHn; auto; lia. }
    apply K2; auto.
  - destruct (Z.leb_spec num 6) as [S6|B6].
    + replace (Z.to_nat (num - 6)) with 0%nat in * by lia. apply IH in L; [|lia].
      replace (Z.to_nat (num - 6)) with 0%nat in L by lia. inversion L; subst. constructor.
    + apply IH in L; [|lia]. assert (m = 6)%nat as -> by (unfold m; lia).
      assert (K : forall a n ws, Forall2 (fun k v => read_fort_float ro (field_no lines (S ofs) k) = Ok v) (seq a n) ws ->
        Forall2 (fun k v => read_fort_float ro (field_no lines ofs k) = Ok v) (seq (6 + a) n) ws).
      { intros a n; revert a; induction n as [|n IHn]; intros a ws Hf; cbn [seq] in *; inversion_clear Hf; constructor.
        - unfold field_no in *. change (6 + a)%nat with (1 * 6 + a)%nat. rewrite Nat.div_add_l by lia.
          rewrite (Nat.add_comm (1 * 6) a), Nat.mod_add by lia.
          replace (ofs + (1 + a / 6))%nat with (S ofs + a / 6)%nat by lia. auto.
        - apply (IHn (S a)); auto. }
      apply (K 0%nat); auto.
Qed.

(** integers *)
Lemma int_vector ro (lines : list str) num ofs zs ofs' : r_width ro = 11%nat -> 0 < num ->
  (forall l : str, In l lines -> (66 <= length l)%nat) ->
  (forall k, (k < Z.to_nat num)%nat -> number_field (field_no lines ofs k) /\ exists z, int32 z /\ read_fort_int (field_no lines ofs k) = Ok z) ->
  read_endf_numbers ro true lines num ofs = Ok (zs, ofs') ->
  exists ns, zs = map NInt ns /\ cpp_read_vec cpp_read_int_field (Z.to_nat num) (skipn ofs lines) = Val (ns, skipn ofs' lines).
Proof.
  intros W P LL R H. unfold read_endf_numbers in H.
  destruct (read_numbers_loop ro (Z.to_nat num) lines num ofs) as [[vs o]|e] eqn:L; [|cbn [bind] in H; discriminate H].
  cbn [bind] in H.
  assert (M : mapM to_int1 vs = Ok (map (fun v => NInt (num_trunc v)) vs)).
  { pose proof (loop_fields ro lines W (Z.to_nat num) num ofs vs o ltac:(lia) L) as F.
    assert (K : forall a n ws, (a + n <= Z.to_nat num)%nat ->
      Forall2 (fun k v => read_fort_float ro (field_no lines ofs k) = Ok v) (seq a n) ws ->
      mapM to_int1 ws = Ok (map (fun v => NInt (num_trunc v)) ws)).
    { intros a n; revert a; induction n as [|n IHn]; intros a ws Ha Hf; cbn [seq] in *; inversion Hf as [|? v ? ws' Hv Hf']; subst; [reflexivity|].
      cbn [mapM map]. destruct (R a ltac:(lia)) as [N (z & I & Z)].
      destruct (int_as_float ro _ z v W (length_slice11 _ _) N Z Hv I) as [-> ->]. cbn [bind].
      rewrite (IHn (S a) ws') by (auto; lia). reflexivity. }
    apply (K 0%nat (Z.to_nat num)); auto. }
  rewrite M in H. inversion H; subst zs o. clear H.
  exists (map num_trunc vs). rewrite map_map. split; [reflexivity|].
  apply (vec_same _ num_trunc ro lines W (Z.to_nat num)); auto. intros k v Hk Ho Hv.
  destruct (R k Hk) as [N (z & I & Z)]. unfold cpp_read_int_field, cfield.
  assert (B : (k mod 6 < 6)%nat) by (apply Nat.mod_upper_bound; lia).
  pose proof (LL (nth (ofs + k / 6) lines []) (nth_In _ _ Ho)) as L66.
  assert (LE : (11 * (k mod 6) + 11 <= length (nth (ofs + k / 6) lines []))%nat) by (eapply Nat.le_trans; [|exact L66]; lia).
  rewrite (proj2 (Nat.ltb_ge _ _) LE).
  rewrite (Nat.mul_comm 11 (k mod 6)).
  destruct (int_as_float ro _ z v W (length_slice11 _ _) N Z Hv I) as [_ ->].
  now apply int_field_same.
Qed.
