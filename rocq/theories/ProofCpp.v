(** The C++ templates against the Python code: selection, fields. *)
From Coq Require Import Ascii String ZArith QArith Qabs Lqa Bool Lia List.
From Coq Require Import Floats.SpecFloat.
From Verif Require Import PyBase ProofPyBase PyFloat ProofFloat ModelFortran ModelRecords ModelTape
  SpecFields ProofFields SpecFloat ProofFloatText ProofAccept ModelCpp SpecCpp.
Import ListNotations.
Open Scope Z_scope.

(** ** Selection *)

Lemma selection_same mf mt exclude include :
  should_parse_section mf mt exclude include = negb (should_skip_section mf mt exclude include).
Proof.
  unfold should_parse_section, should_skip_section, sel_mf, sel_mfmt, seq_contains_mf, seq_contains_pair.
  destruct exclude as [l|].
  - destruct (_ || _); reflexivity.
  - destruct include as [l|]; [|reflexivity]. rewrite negb_andb, !negb_involutive.
    destruct (_ || _); reflexivity.
Qed.

(** ** Integers *)

Lemma c_isspace_ws c : c_isspace c = true -> is_ws c = true.
Proof.
  unfold c_isspace, is_ws. rewrite !orb_true_iff, !andb_true_iff, !Nat.leb_le, !Nat.eqb_eq. intuition lia.
Qed.
Lemma number_char_ws c : number_char c -> is_ws c = true -> c = " "%char.
Proof.
  intros [D|[I|E]] W; auto.
  - apply is_digit_no_ws in D. congruence.
  - cbn in I. destruct I as [<-|[<-|[<-|[<-|[<-|[]]]]]]; discriminate.
Qed.
Lemma number_char_us c : number_char c -> chr_eqb c "_"%char = false.
Proof.
  intros [D|[I|E]]; [now apply is_digit_chr_neq| |now subst].
  cbn in I. destruct I as [<-|[<-|[<-|[<-|[<-|[]]]]]]; reflexivity.
Qed.

Lemma number_us b s : number_field s -> us_ok_from b s = true.
Proof.
  revert b; induction s as [|c s IH]; intros b H; [reflexivity|]. cbn.
  rewrite (number_char_us c) by (apply H; now left). apply IH. intros d I. apply H. now right.
Qed.
Lemma number_drop_us s : number_field s -> drop_us s = s.
Proof.
  induction s as [|c s IH]; intros H; [reflexivity|]. cbn.
  rewrite (number_char_us c) by (apply H; now left). cbn. f_equal. apply IH. intros d I. apply H. now right.
Qed.

Lemma skip_space_app w s : only_spaces w -> skip_space (w ++ s) = skip_space s.
Proof.
  induction w as [|c w IH]; intros H; [reflexivity|]. cbn.
  rewrite (H c) by now left. cbn. apply IH. intros d I. apply H. now right.
Qed.
Lemma skip_space_id c s : is_ws c = false -> skip_space (c :: s) = c :: s.
Proof. intros H. cbn. destruct (c_isspace c) eqn:E; auto. apply c_isspace_ws in E. congruence. Qed.

Lemma all_spaces_iff s : all_spaces s = true <-> only_spaces s.
Proof.
  unfold all_spaces, only_spaces. rewrite forallb_forall. setoid_rewrite chr_eqb_eq. tauto.
Qed.
Lemma only_spaces_ws s : only_spaces s -> all_ws s.
Proof. intros H. apply Forall_forall. intros c I. now rewrite (H c I). Qed.
Lemma ws_only_spaces s : number_field s -> all_ws s -> only_spaces s.
Proof.
  intros N W c I. unfold all_ws in W. rewrite Forall_forall in W. apply number_char_ws; auto.
Qed.

Lemma number_field_sub s t : number_field s -> (forall c, In c t -> In c s) -> number_field t.
Proof. intros H I c J. auto. Qed.

Lemma digits_then_space d w : all_digits d -> only_spaces w -> span_digits (d ++ w) = (d, w).
Proof.
  intros D W. apply span_digits_app; auto. destruct w as [|c w]; [reflexivity|]. cbn. now rewrite (W c) by now left.
Qed.

(** [int(s)] of a field that Python accepts *)
Lemma int_scan s v : number_field s -> int_of_str s = Some v ->
  exists neg u d r, take_sign (skip_space s) = (neg, u) /\ span_digits u = (d, r) /\ d <> [] /\
    v = if neg then - dval d else dval d.
Proof.
  intros N H. unfold int_of_str in H.
  destruct (strip_decomp s) as (w1 & w2 & W1 & W2 & E).
  assert (S1 : only_spaces w1).
  { apply ws_only_spaces; auto. eapply number_field_sub; [exact N|]. intros c I. rewrite E. apply in_or_app; now left. }
  assert (S2 : only_spaces w2).
  { apply ws_only_spaces; auto. eapply number_field_sub; [exact N|]. intros c I. rewrite E. apply in_or_app; right. apply in_or_app; now right. }
  assert (Nt : number_field (strip s)).
  { eapply number_field_sub; [exact N|]. intros c I. rewrite E. apply in_or_app; right. apply in_or_app; now left. }
  destruct (take_sign (strip s)) as [neg d] eqn:T.
  assert (Nd : number_field d).
  { eapply number_field_sub; [exact Nt|]. intros c I.
    apply take_sign_inv in T as [[_ T]|[_ [T|T]]]; rewrite T; auto; now right. }
  unfold us_ok in H. rewrite number_us, number_drop_us in H by auto. cbn [negb] in H.
  assert (H' : (exists c0 d0, d = c0 :: d0) /\ exists z, digits_val_acc d 0 = Some z /\ v = if neg then - z else z).
  { destruct d as [|c0 d0]; [discriminate|]. destruct (digits_val_acc (c0 :: d0) 0) as [z|] eqn:V; [|discriminate].
    inversion H. eauto 6. }
  clear H. destruct H' as [(c0 & d0 & Ed) (z & V & ->)].
  assert (D : all_digits d) by (eapply digits_val_acc_digits; exact V).
  exists neg, (d ++ w2), d, w2. rewrite E, skip_space_app by auto.
  assert (SK : skip_space (strip s ++ w2) = strip s ++ w2 /\ take_sign (strip s ++ w2) = (neg, d ++ w2)).
  { assert (H0 : is_digit c0 = true) by (rewrite Ed in D; now inversion D).
    apply take_sign_inv in T as [[-> T]|[-> [T|T]]]; rewrite T; cbn [app].
    - split; reflexivity.
    - split; reflexivity.
    - rewrite Ed. cbn [app]. split; [now apply skip_space_id, is_digit_no_ws|].
      unfold take_sign. rewrite (is_digit_not c0 "-"%char), (is_digit_not c0 "+"%char); auto; vm_compute; lia. }
  destruct SK as [-> ->]. rewrite digits_then_space by auto. split; [reflexivity|]. split; [reflexivity|].
  split; [congruence|]. unfold dval. rewrite V. reflexivity.
Qed.
Lemma atoi_int s v : number_field s -> int_of_str s = Some v -> atoi s = c_int v.
Proof.
  intros N H. destruct (int_scan s v N H) as (neg & u & d & r & T & S & _ & ->).
  unfold atoi. rewrite T, S. reflexivity.
Qed.
Lemma stoi_int s v : number_field s -> int_of_str s = Some v -> stoi s = c_int v.
Proof.
  intros N H. unfold stoi. rewrite (atoi_int s v) by auto.
  destruct (int_scan s v N H) as (neg & u & d & r & T & S & ND & _).
  rewrite T. cbn [snd]. rewrite S. cbn [fst]. destruct d; [contradiction|reflexivity].
Qed.

Lemma c_int_in v : int32 v -> c_int v = Val v.
Proof.
  intros [A B]. unfold c_int. replace (- 2 ^ 31 <=? v) with true by (symmetry; now apply Z.leb_le).
  replace (v <? 2 ^ 31) with true by (symmetry; now apply Z.ltb_lt). reflexivity.
Qed.

Lemma int_field_same s v : number_field s -> int32 v -> read_fort_int s = Ok v -> endfstr2int s = Val v.
Proof.
  intros N I H. unfold read_fort_int in H. unfold endfstr2int. destruct (is_blank s) eqn:B.
  - apply is_blank_iff in B. apply ws_only_spaces, all_spaces_iff in B; auto. rewrite B. congruence.
  - destruct (int_of_str s) as [z|] eqn:E; [|discriminate]. inversion H; subst z.
    destruct (all_spaces s) eqn:A.
    { apply all_spaces_iff, only_spaces_ws, is_blank_iff in A. congruence. }
    rewrite (atoi_int s v) by auto. now apply c_int_in.
Qed.

(** control columns *)
Lemma ctrl_col_same s v : number_field s -> int32 v -> ctrl_int s = Ok v ->
  (if all_spaces s then Val 0 else atoi s) = Val v.
Proof.
  intros N I H. unfold ctrl_int in H.
  destruct (all_spaces s) eqn:A.
  - apply all_spaces_iff, only_spaces_ws, strip_nil_iff in A. rewrite A in H. congruence.
  - destruct (strip s) as [|c t] eqn:E.
    { apply strip_nil_iff, ws_only_spaces, all_spaces_iff in E; auto. congruence. }
    rewrite <- E, int_of_str_strip in H.
    destruct (int_of_str s) as [z|] eqn:Z; [|discriminate]. inversion H; subst z.
    rewrite (atoi_int s v) by auto. now apply c_int_in.
Qed.
Lemma ctrl_field_same line a w v : (a + w <= length line)%nat -> number_field (slice a (a + w) line) -> int32 v ->
  ctrl_int (slice a (a + w) line) = Ok v -> cpp_read_custom_int_field line a w = Val v.
Proof.
  intros L N I H. unfold cpp_read_custom_int_field.
  replace (length line <? a + w)%nat with false by (symmetry; now apply Nat.ltb_ge).
  now apply ctrl_col_same.
Qed.
Lemma fits_int32 w v : (1 <= w <= 9)%nat -> fits w v -> int32 v.
Proof.
  intros W F. apply in_field_fits in F; [|lia]. unfold in_field in F. unfold int32.
  assert (10 ^ (Z.of_nat w - 1) <= 10 ^ 9) by (apply Z.pow_le_mono_r; lia).
  assert (10 ^ Z.of_nat w <= 10 ^ 9) by (apply Z.pow_le_mono_r; lia).
  lia.
Qed.
Lemma slice_len {A} a w (s : list A) : (a + w <= length s)%nat -> length (slice a (a + w) s) = w.
Proof. intros H. rewrite length_slice. lia. Qed.
Lemma control_read_same ro line c : r_width ro = 11%nat -> (75 <= length line)%nat ->
  number_field (slice 66 75 line) -> read_ctrl ro line = Ok c ->
  cpp_read_mat_number line = Val (MAT c) /\ cpp_read_mf_number line = Val (MF c) /\
  cpp_read_mt_number line = Val (MT c).
Proof.
  intros W L N H. unfold read_ctrl in H. rewrite W in H. change (6 * 11)%nat with 66%nat in H.
  change (66 + 4)%nat with 70%nat in H. change (66 + 6)%nat with 72%nat in H. change (66 + 9)%nat with 75%nat in H.
  destruct (ctrl_int (slice 66 70 line)) as [mat|] eqn:E1; [|discriminate]. cbn [bind] in H.
  destruct (ctrl_int (slice 70 72 line)) as [mf|] eqn:E2; [|discriminate]. cbn [bind] in H.
  destruct (ctrl_int (slice 72 75 line)) as [mt|] eqn:E3; [|discriminate]. cbn [bind] in H.
  inversion H; subst c. cbn [MAT MF MT].
  assert (SP : slice 66 75 line = slice 66 70 line ++ slice 70 72 line ++ slice 72 75 line).
  { rewrite (slice_split 66 70 75) by lia. f_equal. apply slice_split; lia. }
  rewrite SP in N.
  assert (N1 : number_field (slice 66 70 line)) by (eapply number_field_sub; [exact N|]; intros x I; rewrite !in_app_iff; tauto).
  assert (N2 : number_field (slice 70 72 line)) by (eapply number_field_sub; [exact N|]; intros x I; rewrite !in_app_iff; tauto).
  assert (N3 : number_field (slice 72 75 line)) by (eapply number_field_sub; [exact N|]; intros x I; rewrite !in_app_iff; tauto).
  pose proof (slice_len 66 4 line ltac:(lia)) as L1. pose proof (slice_len 70 2 line ltac:(lia)) as L2.
  pose proof (slice_len 72 3 line ltac:(lia)) as L3. cbn [plus] in L1, L2, L3.
  repeat split.
  - apply ctrl_field_same; cbn [plus]; auto; try lia. apply (fits_int32 4); [lia|]. rewrite <- L1. apply ctrl_int_fits; auto. lia.
  - apply ctrl_field_same; cbn [plus]; auto; try lia. apply (fits_int32 2); [lia|]. rewrite <- L2. apply ctrl_int_fits; auto. lia.
  - apply ctrl_field_same; cbn [plus]; auto; try lia. apply (fits_int32 3); [lia|]. rewrite <- L3. apply ctrl_int_fits; auto. lia.
Qed.

(** ** Floats *)

Lemma collect_space acc st ie s : acc || negb st = true -> collect acc st ie (" "%char :: s) = collect acc st ie s.
Proof. intros H. cbn [collect]. change (chr_eqb " " " ") with true. now rewrite H. Qed.

Lemma collect_remove s : forall st ie, collect true st ie s = collect true st ie (remove_chr " "%char s).
Proof.
  unfold remove_chr. induction s as [|c s IH]; intros st ie; [reflexivity|].
  cbn [filter]. destruct (chr_eqb c " "%char) eqn:E.
  - apply chr_eqb_eq in E. subst c. rewrite collect_space by reflexivity. cbn [negb]. apply IH.
  - cbn [negb collect]. rewrite E. now rewrite !IH.
Qed.

Lemma rstrip_chr_remove s : remove_chr " "%char (rstrip_chr " "%char s) = remove_chr " "%char s.
Proof.
  unfold rstrip_chr, remove_chr. rewrite <- (rev_involutive s) at 2. set (r := rev s). clearbody r.
  induction r as [|c r IH]; [reflexivity|]. cbn [lstrip_chr].
  destruct (chr_eqb c " "%char) eqn:E.
  - rewrite IH. cbn [rev]. rewrite filter_app. cbn [filter]. rewrite E. cbn. now rewrite app_nil_r.
  - reflexivity.
Qed.
Lemma rstrip_chr_pad s c w : c <> " "%char -> only_spaces w -> rstrip_chr " "%char ((s ++ [c]) ++ w) = s ++ [c].
Proof.
  intros N W. unfold rstrip_chr. rewrite !rev_app_distr. cbn [rev app].
  assert (K : forall v, only_spaces v -> lstrip_chr " "%char (v ++ c :: rev s) = c :: rev s).
  { induction v as [|x v IH]; intros H; cbn [app lstrip_chr].
    - destruct (chr_eqb c " "%char) eqn:E; auto. apply chr_eqb_eq in E. contradiction.
    - rewrite (H x) by now left. cbn. apply IH. intros y I. apply H. now right. }
  rewrite K by (intros x I; apply W; now apply in_rev). cbn. now rewrite rev_involutive.
Qed.

Lemma fchars_nospace c : fchars c = true -> chr_eqb c " "%char = false.
Proof. intros F. destruct (chr_eqb c " "%char) eqn:E; auto. apply chr_eqb_eq in E. subst. discriminate. Qed.

(** behind the exponent letter everything is copied *)
Lemma collect_tail acc s : fstr s -> collect acc true true s = Some s.
Proof.
  intros F. induction F as [|c s Hc F IH]; [reflexivity|]. cbn [collect].
  rewrite fchars_nospace, IH by auto. reflexivity.
Qed.

(** digits and the point *)
Definition mant_char (c : ascii) : Prop := is_digit c = true \/ c = "."%char.
Lemma mant_facts c : mant_char c -> chr_eqb c " "%char = false /\ chr_eqb c "+"%char = false /\
  chr_eqb c "-"%char = false /\ chr_eqb c "e"%char = false /\ chr_eqb c "E"%char = false.
Proof.
  intros [D| ->]; [|repeat split]. repeat split; now apply is_digit_chr_neq.
Qed.
Lemma collect_mant acc s r : Forall mant_char s ->
  collect acc true false (s ++ r) = option_map (app s) (collect acc true false r).
Proof.
  intros F. induction F as [|c s Hc F IH]; cbn [app].
  - now destruct (collect acc true false r).
  - cbn [collect]. destruct (mant_facts c Hc) as (-> & -> & -> & -> & ->). cbn [orb]. rewrite IH.
    now destruct (collect acc true false r).
Qed.
Lemma collect_first acc c r : mant_char c \/ is_sign c = true ->
  collect acc false false (c :: r) = option_map (cons c) (collect acc true false r).
Proof.
  intros H. cbn [collect]. fold (is_sign c).
  assert (chr_eqb c " "%char = false) as ->.
  { destruct H as [H|H]; [now apply mant_facts in H|]. destruct (chr_eqb c " "%char) eqn:E; auto.
    apply chr_eqb_eq in E. subst. discriminate. }
  replace (chr_eqb c "."%char || is_digit c || is_sign c) with true; [reflexivity|].
  symmetry. destruct H as [[D| ->]|S].
  - rewrite D. now rewrite orb_true_r.
  - reflexivity.
  - rewrite S. now rewrite !orb_true_r.
Qed.

(** the letter that C++ inserts *)
Lemma collect_text acc t neg m e : fortran_text t neg m e ->
  exists sign ip point fp ex k, collect acc false false t = Some (sign ++ ip ++ point ++ fp ++ ex) /\
    (sign = [] /\ neg = false \/ sign = $"+" /\ neg = false \/ sign = $"-" /\ neg = true) /\
    all_digits ip /\ all_digits fp /\ ip ++ fp <> [] /\
    (point = [] /\ fp = [] \/ point = $".") /\ exponent_text false ex k /\
    m = digits_value (ip ++ fp) /\ e = k - Z.of_nat (length fp).
Proof.
  intros (sign & ip & point & fp & bare & ex & k & -> & HS & Di & Df & N & P & X & -> & ->).
  apply digit_string_all in Di, Df.
  set (M := ip ++ point ++ fp).
  assert (FM : Forall mant_char M).
  { unfold M. rewrite !Forall_app. repeat split.
    - eapply Forall_impl; [|exact Di]. intros c H. now left.
    - destruct P as [[-> _]|[-> _]]; constructor; [now right|constructor].
    - eapply Forall_impl; [|exact Df]. intros c H. now left. }
  assert (NM : M <> []).
  { unfold M. intros Z. apply app_eq_nil in Z as [-> Z]. apply app_eq_nil in Z as [_ ->]. now apply N. }
  replace (sign ++ ip ++ point ++ fp ++ ex) with (sign ++ M ++ ex) by (unfold M; now rewrite <- !app_assoc).
  assert (EX : exists ex', collect acc true false ex = Some ex' /\ exponent_text false ex' k).
  { inversion X as [|c sg ds Hc Hs Nd Dd|sg ds Hs Nd Dd]; subst.
    - exists []. split; [reflexivity|constructor].
    - exists (c :: sg ++ ds). split; [|now constructor]. cbn [collect].
      assert (F : fstr (sg ++ ds)).
      { apply exponent_fstr in X. now inversion X. }
      destruct Hc; subst c; cbn; rewrite collect_tail by auto; reflexivity.
    - exists ("e"%char :: sg ++ ds). split.
      + apply digit_string_all in Dd.
        destruct Hs as [-> | ->]; cbn [list_ascii_of_string app collect]; cbn;
          rewrite collect_tail by now apply fstr_digits. reflexivity. reflexivity.
      + apply exp_letter; auto. }
  destruct EX as (ex' & CE & X').
  exists sign, ip, point, fp, ex', k.
  split; [|refine (conj HS (conj Di (conj Df (conj N (conj _ (conj X' (conj eq_refl eq_refl))))))); destruct P as [P|[P _]]; auto].
  replace (sign ++ ip ++ point ++ fp ++ ex') with (sign ++ M ++ ex') by (unfold M; now rewrite <- !app_assoc).
  assert (CM : collect acc true false (M ++ ex) = Some (M ++ ex')).
  { rewrite collect_mant by auto. now rewrite CE. }
  destruct HS as [[-> _]|[[-> _]|[-> _]]].
  - cbn [app]. destruct M as [|c M']; [contradiction|]. cbn [app]. inversion FM; subst.
    rewrite collect_first by auto. cbn [app] in CM. rewrite collect_mant, CE by auto. reflexivity.
  - cbn [list_ascii_of_string app]. rewrite collect_first by now right. now rewrite CM.
  - cbn [list_ascii_of_string app]. rewrite collect_first by now right. now rewrite CM.
Qed.

Lemma scan_exponent_text ex k : exponent_text false ex k -> scan_exponent ex = k.
Proof.
  intros X. inversion X as [|c sg ds Hc Hs Nd Dd|]; subst; [reflexivity|].
  apply digit_string_all in Dd. unfold scan_exponent.
  assert (chr_eqb c "e" || chr_eqb c "E" = true) as -> by (destruct Hc; subst; reflexivity).
  assert (TS : take_sign (sg ++ ds) = (str_eqb sg $"-", ds)).
  { destruct Hs as [-> | [-> | ->]]; try reflexivity. cbn [app]. rewrite take_sign_digits by auto. reflexivity. }
  assert (SD : span_digits ds = (ds, [])).
  { rewrite <- (app_nil_r ds) at 1. now rewrite span_digits_app by (auto; reflexivity). }
  rewrite TS, SD. cbn [fst]. rewrite dval_digits by auto. reflexivity.
Qed.

Definition tiny (m e : Z) : bool := (0 <? m) && (dec_num m e * 2 ^ 1022 <? dec_den e).

Lemma stod_text sign neg ip point fp ex k :
  (sign = [] /\ neg = false \/ sign = $"+" /\ neg = false \/ sign = $"-" /\ neg = true) ->
  all_digits ip -> all_digits fp -> ip ++ fp <> [] ->
  (point = [] /\ fp = [] \/ point = $".") ->
  exponent_text false ex k ->
  let m := digits_value (ip ++ fp) in let e := k - Z.of_nat (length fp) in
  stod (sign ++ ip ++ point ++ fp ++ ex) =
  match round64 neg (dec_num m e) (dec_den e) with
  | S754_infinity _ => Throw
  | f => if tiny m e then Throw else Val f
  end.
Proof.
  intros HS Di Df N P X m e.
  set (u := ip ++ point ++ fp ++ ex).
  assert (U0 : exists c r, u = c :: r /\ mant_char c).
  { unfold u. destruct ip as [|c ip].
    - destruct P as [[-> ->]| ->]; [contradiction|]. cbn. eexists _, _. split; [reflexivity|]. now right.
    - exists c. cbn. eexists. split; [reflexivity|]. left. now inversion Di. }
  destruct U0 as (c & r & Eu & Hc).
  assert (SK : skip_space (sign ++ u) = sign ++ u).
  { destruct HS as [[-> _]|[[-> _]|[-> _]]]; try reflexivity. cbn [app]. rewrite Eu. apply skip_space_id.
    destruct Hc as [Hc| ->]; [now apply is_digit_no_ws|reflexivity]. }
  assert (TS : take_sign (sign ++ u) = (neg, u)).
  { destruct HS as [[-> ->]|[[-> ->]|[-> ->]]]; try reflexivity. cbn [app]. rewrite Eu. unfold take_sign.
    destruct (mant_facts c Hc) as (_ & -> & -> & _). reflexivity. }
  unfold stod. rewrite SK, TS. unfold u.
  assert (SE : starts_digit ex = false).
  { inversion X as [|c' sg ds Hc' _ _ _|]; subst; [reflexivity|]. cbn. destruct Hc'; subst; reflexivity. }
  assert (SP : starts_digit (point ++ fp ++ ex) = false).
  { destruct P as [[-> ->]| ->]; [exact SE|reflexivity]. }
  rewrite span_digits_app by auto.
  assert (E2 : match point ++ fp ++ ex with
               | [] => ([], [])
               | c :: r => if chr_eqb c "."%char then span_digits r else ([], point ++ fp ++ ex)
               end = (fp, ex)).
  { destruct P as [[-> ->]| ->].
    - cbn [app]. destruct ex as [|c1 r1]; [reflexivity|].
      assert (chr_eqb c1 "."%char = false) as ->; [|reflexivity].
      inversion X as [|c' sg ds Hc' _ _ _|]; subst. destruct Hc'; subst; reflexivity.
    - cbn [app]. cbn. now apply span_digits_app. }
  cbv beta iota zeta. unfold str in *. rewrite E2. rewrite (scan_exponent_text ex k) by auto.
  assert (Dif : all_digits (ip ++ fp)) by (apply Forall_app; auto).
  pose proof (dval_digits _ Dif) as DV. fold m in DV.
  destruct (ip ++ fp) as [|c0 ds0] eqn:Eds; [contradiction|]. cbv beta iota zeta.
  rewrite DV. fold e. unfold tiny. reflexivity.
Qed.

Definition cpp_value (neg : bool) (m e : Z) : cpp spec_float :=
  match round64 neg (dec_num m e) (dec_den e) with
  | S754_infinity _ => Throw
  | f => if tiny m e then Throw else Val f
  end.

Lemma stod_collect acc t neg m e : fortran_text t neg m e ->
  exists u, collect acc false false t = Some u /\ u <> [] /\ stod u = cpp_value neg m e.
Proof.
  intros T. destruct (collect_text acc t neg m e T)
    as (sign & ip & point & fp & ex & k & C & HS & Di & Df & N & P & X & -> & ->).
  eexists. split; [exact C|]. split.
  - intros Z. apply app_eq_nil in Z as [_ Z]. apply app_eq_nil in Z as [-> Z].
    apply app_eq_nil in Z as [_ Z]. apply app_eq_nil in Z as [-> _]. now apply N.
  - now apply stod_text.
Qed.

(** fields with surrounding spaces; with accept_spaces the spaces are anywhere *)
Definition spaced_text (accept : bool) (t s : str) : Prop :=
  if accept then spread t s else exists w1 w2, s = w1 ++ t ++ w2 /\ only_spaces w1 /\ only_spaces w2.

Lemma cpp_float_text accept t s neg m e : fortran_text t neg m e -> spaced_text accept t s ->
  endfstr2float accept s = cpp_value neg m e.
Proof.
  intros T S. destruct (fortran_text_fstr t neg m e T) as [F NT].
  destruct (stod_collect accept t neg m e T) as (u & C & NU & V).
  unfold endfstr2float. unfold spaced_text in S. destruct accept.
  - pose proof (rstrip_chr_remove s) as R. rewrite (spread_remove t s), (remove_space_fstr t) in R by auto.
    destruct (rstrip_chr " "%char s) as [|c r] eqn:E; [cbn in R; congruence|].
    rewrite <- E in *. rewrite collect_remove, R, C. destruct u; [contradiction|]. exact V.
  - destruct S as (w1 & w2 & -> & S1 & S2).
    destruct t as [|c t] using rev_ind; [contradiction|]. clear IHt.
    replace (w1 ++ (t ++ [c]) ++ w2) with (((w1 ++ t) ++ [c]) ++ w2) by (rewrite <- !app_assoc; reflexivity).
    rewrite rstrip_chr_pad; auto.
    2:{ apply fstr_app in F as [_ F]. inversion F; subst. intros ->. discriminate. }
    rewrite <- app_assoc.
    assert (CW : forall w, only_spaces w -> collect false false false (w ++ t ++ [c]) = Some u).
    { induction w as [|x w IH]; intros W; [exact C|]. cbn [app]. rewrite (W x) by now left.
      rewrite collect_space by reflexivity. apply IH. intros y I. apply W. now right. }
    pose proof (CW w1 S1) as CC.
    assert (NN : w1 ++ t ++ [c] <> []) by (intros Z; apply app_eq_nil in Z as [_ Z]; destruct t; discriminate).
    destruct (w1 ++ t ++ [c]) as [|c1 r1]; [contradiction|]. rewrite CC. destruct u; [contradiction|]. exact V.
Qed.

Lemma blank_cpp_float accept s : only_spaces s -> endfstr2float accept s = Val (S754_zero false).
Proof.
  intros S. unfold endfstr2float, rstrip_chr.
  assert (K : forall v, only_spaces v -> lstrip_chr " "%char v = []).
  { induction v as [|x v IH]; intros H; [reflexivity|]. cbn. rewrite (H x) by now left. cbn.
    apply IH. intros y I. apply H. now right. }
  rewrite K; [reflexivity|]. intros c I. apply S. now apply in_rev.
Qed.

Lemma dec_den_pos e : 0 < dec_den e.
Proof. apply Z.pow_pos_nonneg; lia. Qed.

Lemma tiny_spec m e : 0 < m -> (tiny m e = false <-> (Qpower 2 (-1022) <= decimalQ m e)%Q).
Proof.
  intros P. unfold tiny. replace (0 <? m) with true by (symmetry; now apply Z.ltb_lt). cbn [andb].
  rewrite Z.ltb_ge. rewrite <- dec_frac. pose proof (dec_den_pos e) as D.
  change (Qpower 2 (-1022)) with (p2 (- (1022))).
  pose proof (p2_opp 1022) as O. pose proof (iz_pos _ D) as Q.
  assert (Z2 : (p2 1022 == inject_Z (2 ^ 1022))%Q) by (apply p2_Z; lia).
  assert (P2 : (0 < p2 1022)%Q) by (rewrite Z2; apply iz_pos; now apply Z.pow_pos_nonneg).
  rewrite Zle_Qle, inject_Z_mult, <- Z2. unfold frac. split; intros H.
  - apply Qle_shift_div_l; auto.
    setoid_replace (p2 (- (1022)) * inject_Z (dec_den e))%Q with (inject_Z (dec_den e) * p2 (- (1022)))%Q by ring.
    assert (X : (inject_Z (dec_den e) * p2 (- (1022)) <= (inject_Z (dec_num m e) * p2 1022) * p2 (- (1022)))%Q).
    { apply Qmult_le_compat_r; auto. apply Qlt_le_weak.
      setoid_replace (p2 (- (1022))) with (1 / p2 1022)%Q by (field_simplify_eq; [exact O|lra]).
      apply Qlt_shift_div_l; auto. }
    setoid_replace (inject_Z (dec_num m e) * p2 1022 * p2 (- (1022)))%Q with (inject_Z (dec_num m e))%Q in X; auto.
    setoid_replace (inject_Z (dec_num m e) * p2 1022 * p2 (- (1022)))%Q
      with (inject_Z (dec_num m e) * (p2 (- (1022)) * p2 1022))%Q by ring. rewrite O. ring.
  - assert (X : (p2 (- (1022)) * inject_Z (dec_den e) <= inject_Z (dec_num m e))%Q).
    { setoid_replace (inject_Z (dec_num m e)) with (inject_Z (dec_num m e) / inject_Z (dec_den e) * inject_Z (dec_den e))%Q
        by (field; lra). apply Qmult_le_compat_r; auto. lra. }
    assert (Y : ((p2 (- (1022)) * inject_Z (dec_den e)) * p2 1022 <= inject_Z (dec_num m e) * p2 1022)%Q).
    { apply Qmult_le_compat_r; auto. lra. }
    setoid_replace (p2 (- (1022)) * inject_Z (dec_den e) * p2 1022)%Q
      with ((p2 (- (1022)) * p2 1022) * inject_Z (dec_den e))%Q in Y by ring.
    rewrite O in Y. lra.
Qed.

Lemma cpp_value_in_range neg m e : 0 <= m -> in_double_range m e ->
  cpp_value neg m e = Val (round64 neg (dec_num m e) (dec_den e)).
Proof.
  intros Hm R. unfold cpp_value. destruct (round64_decimal neg m e Hm) as [A _].
  assert (LT : (decimalQ m e < overflow_threshold)%Q).
  { destruct R as [->|[_ R]]; auto. unfold decimalQ. setoid_replace (inject_Z 0 * Qpower 10 e)%Q with 0%Q by (change (inject_Z 0) with 0%Q; ring).
    reflexivity. }
  destruct (A LT) as [(F & _) _].
  assert (TF : tiny m e = false).
  { destruct R as [->|[R _]]; [reflexivity|]. destruct (Z.eq_dec m 0) as [->|]; [reflexivity|]. apply tiny_spec; auto. lia. }
  rewrite TF. destruct (round64 neg (dec_num m e) (dec_den e)); try reflexivity. discriminate.
Qed.
Lemma cpp_value_out_of_range neg m e : 0 <= m -> ~ in_double_range m e -> cpp_value neg m e = Throw.
Proof.
  intros Hm R. unfold cpp_value. destruct (round64_decimal neg m e Hm) as [A B].
  destruct (Qlt_le_dec (decimalQ m e) overflow_threshold) as [L|L].
  - assert (TT : tiny m e = true).
    { destruct (tiny m e) eqn:T; auto. exfalso. apply R. destruct (Z.eq_dec m 0) as [->|]; [now left|]. right.
      split; auto. apply tiny_spec; auto. lia. }
    rewrite TT. now destruct (round64 neg (dec_num m e) (dec_den e)).
  - now rewrite (B L).
Qed.

Lemma field_spaced accept t s : number_field s -> field_text accept t s -> spaced_text accept t s.
Proof.
  intros N. unfold field_text, spaced_text. destruct accept; auto.
  intros (w1 & w2 & -> & B1 & B2). exists w1, w2. split; [reflexivity|].
  apply blank_all_ws in B1, B2.
  split; (apply ws_only_spaces; [|assumption]); (eapply number_field_sub; [exact N|]); intros c I; rewrite !in_app_iff; auto.
Qed.

(** every field that Python accepts *)
Lemma float_field_same ro s v : r_width ro = 11%nat -> (length s <= 11)%nat -> number_field s ->
  read_fort_float ro s = Ok v ->
  exists f, v = (if r_preserve ro && negb (is_blank s) then NEndf f s else NFlt f) /\
   ((blank s /\ f = S754_zero false /\ endfstr2float (r_spaces ro) s = Val f) \/
    exists t neg m e, fortran_text t neg m e /\ field_text (r_spaces ro) t s /\
      f = round64 neg (dec_num m e) (dec_den e) /\
      (in_double_range m e -> endfstr2float (r_spaces ro) s = Val f) /\
      (~ in_double_range m e -> endfstr2float (r_spaces ro) s = Throw)).
Proof.
  intros W L N H. apply accepted_field in H; [|lia|now apply number_field_chars].
  destruct H as [[B ->]|(t & neg & m & e & T & F & ->)].
  - exists (S754_zero false). split.
    { apply blank_iff in B. rewrite B. now rewrite andb_false_r. }
    left. split; auto. split; auto. apply blank_cpp_float. apply ws_only_spaces; auto. now apply blank_all_ws.
  - exists (round64 neg (dec_num m e) (dec_den e)). split.
    + assert (is_blank s = false) as ->.
      { destruct (is_blank s) eqn:B; auto. exfalso.
        destruct (fortran_text_fstr t neg m e T) as [Ft Nt]. destruct t as [|c t]; [contradiction|].
        assert (I : In c s).
        { unfold field_text in F. destruct (r_spaces ro).
          - clear - F. remember (c :: t) as u eqn:E. revert E. induction F; intros E; [discriminate| |].
            + right. auto.
            + inversion E; subst. now left.
          - destruct F as (w1 & w2 & -> & _). rewrite !in_app_iff. right. left. now left. }
        apply is_blank_iff in B. unfold all_ws in B. rewrite Forall_forall in B.
        inversion Ft; subst. apply fchars_no_ws in H1. rewrite B in H1 by auto. discriminate. }
      cbn [negb]. now rewrite andb_true_r.
    + right. exists t, neg, m, e. split; auto. split; auto. split; auto.
      pose proof (fortran_text_nonneg t neg m e T) as Hm.
      rewrite (cpp_float_text _ t s neg m e) by (auto; now apply field_spaced).
      split; intros R; [now apply cpp_value_in_range|now apply cpp_value_out_of_range].
Qed.
