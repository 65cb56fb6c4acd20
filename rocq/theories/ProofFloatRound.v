(** Proofs about the fixed-point form, the choice between the two forms, accuracy and
    stability of written numbers. *)
From Coq Require Import Ascii String ZArith QArith Qabs Qpower Bool Lia Lqa List.
From Coq Require Import Floats.SpecFloat.
From Verif Require Import PyBase PyFloat ModelFortran ModelRecords SpecFields SpecFloat SpecLibm.
From Verif Require Import ProofPyBase ProofFloat ProofFields ProofFloatText ProofLibm ProofRecords ProofFloatWrite.
Import ListNotations.
Open Scope Z_scope.

(** ** The text of the fixed-point form *)

Definition plain_text (t : str) : Prop :=
  exists k sign ip point fp, t = spaces k ++ sign ++ ip ++ point ++ fp /\
    (sign = [] \/ sign = $"-") /\ all_digits ip /\ all_digits fp /\ ip ++ fp <> [] /\
    (point = [] /\ fp = [] \/ point = $"." /\ fp <> []).

Lemma rstrip_chr_snoc c0 s c : rstrip_chr c0 (s ++ [c]) = if chr_eqb c c0 then rstrip_chr c0 s else s ++ [c].
Proof.
  unfold rstrip_chr. rewrite rev_app_distr. cbn [rev app lstrip_chr]. destruct (chr_eqb c c0); auto.
  cbn [rev]. now rewrite rev_involutive.
Qed.

Lemma strip_fraction (x fp : str) : all_digits fp -> (forall y, x <> y ++ $".") ->
  (exists fp', rstrip_chr "."%char (rstrip_chr "0"%char (x ++ $"." ++ fp)) = x ++ $"." ++ fp' /\
     all_digits fp' /\ fp' <> [] /\ (length fp' <= length fp)%nat) \/
  rstrip_chr "."%char (rstrip_chr "0"%char (x ++ $"." ++ fp)) = x.
Proof.
  intros D NX. induction fp as [|c fp IH] using rev_ind.
  - right. rewrite app_nil_r. change ($".") with ["."%char].
    rewrite (rstrip_chr_snoc "0"). change (chr_eqb "." "0") with false. cbn iota.
    rewrite (rstrip_chr_snoc "."). change (chr_eqb "." ".") with true. cbn iota.
    destruct x as [|c x] using rev_ind; [reflexivity|]. rewrite rstrip_chr_snoc.
    destruct (chr_eqb c "."%char) eqn:E; auto. apply chr_eqb_eq in E. subst. now destruct (NX x).
  - apply Forall_app in D as [D1 D2]. specialize (IH D1). inversion D2 as [|? ? Dc _]; subst.
    replace (x ++ $"." ++ fp ++ [c]) with ((x ++ $"." ++ fp) ++ [c]) by (now rewrite <- !app_assoc).
    rewrite rstrip_chr_snoc. destruct (chr_eqb c "0"%char) eqn:E.
    + destruct IH as [(fp' & A & B & C & L)|IH]; [left; exists fp'; rewrite app_length; auto with arith|now right].
    + left. exists (fp ++ [c]). rewrite rstrip_chr_snoc.
      assert (chr_eqb c "."%char = false) as -> by (now apply is_digit_chr_neq).
      split; [now rewrite <- !app_assoc|]. split; [apply Forall_app; auto|]. split; [destruct fp; discriminate|lia].
Qed.

Lemma has_chr_app c a b : has_chr c (a ++ b) = has_chr c a || has_chr c b.
Proof. unfold has_chr. apply existsb_app. Qed.
Lemma has_chr_spaces k : has_chr "."%char (spaces k) = false.
Proof. induction k; cbn; auto. Qed.
Lemma has_chr_digits s : all_digits s -> has_chr "."%char s = false.
Proof.
  induction 1 as [|c s H Hs IH]; [reflexivity|]. unfold has_chr in *. cbn [existsb]. rewrite IH, orb_false_r.
  destruct (chr_eqb "." c) eqn:E; auto. apply chr_eqb_eq in E. subst. discriminate.
Qed.
Lemma has_chr_sign s : s = [] \/ s = $"-" -> has_chr "."%char s = false.
Proof. intros [-> | ->]; reflexivity. Qed.

Lemma index_chr_app c a b : has_chr c a = false -> index_chr c (a ++ c :: b) = length a.
Proof.
  induction a as [|d a IH]; cbn; intros H.
  - now rewrite chr_eqb_refl.
  - apply orb_false_iff in H as [H1 H2]. assert (chr_eqb d c = false) as -> by (destruct (chr_eqb d c) eqn:E; auto; apply chr_eqb_eq in E; subst; now rewrite chr_eqb_refl in H1). f_equal. now apply IH.
Qed.

(** the untrimmed text *)
Definition raw_text (b : str) : Prop :=
  exists k sign ip point fp, b = spaces k ++ sign ++ ip ++ point ++ fp /\
    (sign = [] \/ sign = $"-") /\ all_digits ip /\ all_digits fp /\
    (point = [] /\ fp = [] /\ ip <> [] \/ point = $"." /\ (ip <> [] \/ k = 0%nat \/ sign = [])).

Definition trim_basic (b : str) : str :=
  if has_chr "."%char b then
    let t := rstrip_chr "."%char (rstrip_chr "0"%char b) in
    if str_eqb t $"+" || str_eqb t $"-" || str_eqb t [] then $"0" else t
  else b.

Lemma zero_plain : plain_text $"0".
Proof. exists 0%nat, [], $"0", [], []. repeat split; auto; try constructor; auto; try constructor; try discriminate. Qed.

Lemma no_dot_end (x : str) : has_chr "."%char x = false -> forall y, x <> y ++ $".".
Proof. intros H y ->. rewrite has_chr_app in H. cbn in H. now rewrite orb_true_r in H. Qed.

Lemma trim_shape b : raw_text b -> all_ws (trim_basic b) \/ plain_text (trim_basic b).
Proof.
  intros (k & sign & ip & point & fp & -> & S & Di & Df & P). unfold trim_basic.
  assert (X : has_chr "."%char (spaces k ++ sign ++ ip) = false)
    by (rewrite !has_chr_app, has_chr_spaces, has_chr_sign, has_chr_digits; auto).
  destruct P as [(-> & -> & Ni)|(-> & Q)].
  - cbn [app]. rewrite app_nil_r. rewrite X. right. exists k, sign, ip, [], []. cbn [app]. rewrite !app_nil_r.
    repeat split; auto.
  - replace (spaces k ++ sign ++ ip ++ $"." ++ fp) with ((spaces k ++ sign ++ ip) ++ $"." ++ fp) by (now rewrite <- !app_assoc).
    assert (has_chr "."%char ((spaces k ++ sign ++ ip) ++ $"." ++ fp) = true) as ->
      by (rewrite has_chr_app; cbn; now rewrite orb_true_r).
    cbv zeta. set (t := rstrip_chr "."%char (rstrip_chr "0"%char ((spaces k ++ sign ++ ip) ++ $"." ++ fp))).
    assert (T : all_ws t \/ plain_text t \/ t = $"-" \/ t = []).
    { destruct (strip_fraction (spaces k ++ sign ++ ip) fp Df (no_dot_end _ X)) as [(fp' & E & D' & N' & _)|E]; fold t in E.
      - right; left. exists k, sign, ip, $".", fp'. rewrite E, <- !app_assoc. repeat split; auto.
        destruct ip; [exact N'|discriminate].
      - destruct (list_eq_dec ascii_dec ip []) as [->|Ni].
        + rewrite app_nil_r in E. destruct S as [-> | ->].
          * left. rewrite E, app_nil_r. apply spaces_ws.
          * destruct Q as [Q|[-> | Q]]; [contradiction| |discriminate]. right; right; left. exact E.
        + right; left. exists k, sign, ip, [], []. cbn [app]. rewrite !app_nil_r. repeat split; auto; constructor. }
    destruct (str_eqb t $"+" || str_eqb t $"-" || str_eqb t []) eqn:Z0; [right; apply zero_plain|].
    apply orb_false_iff in Z0 as [Z0 Z2]. apply orb_false_iff in Z0 as [_ Z1].
    destruct T as [T|[T|[T|T]]]; auto; rewrite T in *; discriminate.
Qed.

Lemma spaces_app a b : spaces a ++ spaces b = spaces (a + b).
Proof. unfold spaces. now rewrite <- repeat_app. Qed.

Lemma raw_rjust n b : raw_text b -> (forall fp, b = $"-." ++ fp -> (n <= length b)%nat) -> raw_text (rjust n b).
Proof.
  intros (k & sign & ip & point & fp & E & S & Di & Df & P) H. unfold rjust.
  exists (n - length b + k)%nat, sign, ip, point, fp. split; [rewrite E at 2; now rewrite app_assoc, spaces_app|].
  repeat (split; [assumption|]). destruct P as [P|(-> & Q)]; [now left|]. right. split; auto.
  destruct Q as [Q|[-> | Q]]; auto. destruct S as [-> | ->]; [now right; right|].
  destruct (list_eq_dec ascii_dec ip []) as [->|Ni]; [|now left].
  right; left. specialize (H fp E). lia.
Qed.

Lemma num_trunc_small v : (num_trunc v = 0) -> Z.abs (num_num v) < num_den v.
Proof.
  unfold num_trunc. intros H. pose proof (num_den_pos v) as D. apply Z.quot_small_iff in H; [|lia].
  rewrite (Z.abs_eq (num_den v)) in H by lia. lia.
Qed.

Lemma format_num_shape p v : (1 <= p)%nat -> exists ip fp,
  format_num_f p v = (if num_num v <? 0 then $"-" else []) ++ ip ++ $"." ++ fp /\
  all_digits ip /\ all_digits fp /\ ip <> [] /\ length fp = p.
Proof.
  intros Hp. pose proof (num_den_pos v) as D. unfold format_num_f, format_f.
  assert (G : forall n, 0 <= n -> exists ip fp, fixed_digits p (rhe (n * 10 ^ Z.of_nat p) (num_den v)) = ip ++ $"." ++ fp /\
     all_digits ip /\ all_digits fp /\ ip <> [] /\ length fp = p).
  { intros n Hn. destruct (fixed_digits_parts p (rhe (n * 10 ^ Z.of_nat p) (num_den v)) Hp) as (ip & fp & E & A & B & C & _ & L & _).
    - apply rhe_nonneg; auto. assert (0 < 10 ^ Z.of_nat p) by (apply Z.pow_pos_nonneg; lia). nia.
    - exists ip, fp. auto. }
  destruct (Z.ltb_spec (num_num v) 0).
  - destruct (G (- num_num v) ltac:(lia)) as (ip & fp & -> & X). exists ip, fp. auto.
  - destruct (G (num_num v) ltac:(lia)) as (ip & fp & -> & X). exists ip, fp. auto.
Qed.

Lemma str_of_Z_shape z : exists sign ip, str_of_Z z = sign ++ ip /\ (sign = [] \/ sign = $"-") /\ all_digits ip /\ ip <> [].
Proof.
  unfold str_of_Z. destruct (z <? 0).
  - exists $"-", (str_of_nonneg (- z)). repeat split; auto using str_of_nonneg_digits, str_of_nonneg_nonnil.
  - exists [], (str_of_nonneg z). repeat split; auto using str_of_nonneg_digits, str_of_nonneg_nonnil.
Qed.

Lemma zeros_digits n : all_digits (repeat "0"%char n).
Proof. unfold all_digits. apply Forall_forall. intros c H. apply repeat_spec in H. now subst. Qed.

Lemma basic_raw wo v : wide_ok wo -> raw_text (float2basicnumstr wo v).
Proof.
  intros W. unfold wide_ok in W. pose proof (num_den_pos v) as D. unfold float2basicnumstr.
  set (z := num_trunc v). destruct ((num_num v =? z * num_den v) && (z =? 0)) eqn:E0.
  { apply raw_rjust.
    - exists 0%nat, [], $"0", [], []. split; [reflexivity|]. split; auto. split; [apply (zeros_digits 1)|].
      split; [constructor|]. left. repeat split; discriminate.
    - intros fp X. discriminate. }
  set (isint := num_num v =? z * num_den v) in *. set (sk := w_skip wo && (z =? 0)).
  set (waste := if isint then (if w_abuse wo && (0 <? num_num v) then 2 - 1 else 2) - 1 else if w_abuse wo && (0 <? num_num v) then 2 - 1 else 2).
  set (ew := if sk then S (w_width wo) else w_width wo).
  set (fw := Z.of_nat ew - waste - Z.of_nat (ndigits (Z.abs z))).
  destruct ((0 <? fw) && negb isint) eqn:E1.
  - apply andb_true_iff in E1 as [F1 F2]. apply Z.ltb_lt in F1.
    destruct (format_num_shape (Z.to_nat fw) v ltac:(lia)) as (ip & fp & E & Di & Df & Ni & L).
    rewrite E. set (sign := if num_num v <? 0 then $"-" else []).
    assert (S : sign = [] \/ sign = $"-") by (unfold sign; destruct (num_num v <? 0); auto).
    set (m := (ew - length (sign ++ ip ++ $"." ++ fp))%nat).
    change (rjust ew (sign ++ ip ++ $"." ++ fp)) with (spaces m ++ sign ++ ip ++ $"." ++ fp).
    destruct sk eqn:ES.
    + apply andb_true_iff in ES as [_ Ez]. apply Z.eqb_eq in Ez.
      destruct ip as [|c ip0 _] using rev_ind; [contradiction|]. apply Forall_app in Di as [Di Dc].
      assert (XI : index_chr "."%char (spaces m ++ sign ++ (ip0 ++ [c]) ++ $"." ++ fp) = length (spaces m ++ sign ++ ip0 ++ [c])).
      { replace (spaces m ++ sign ++ (ip0 ++ [c]) ++ $"." ++ fp) with ((spaces m ++ sign ++ ip0 ++ [c]) ++ "."%char :: fp) by (now rewrite <- !app_assoc).
        apply index_chr_app. rewrite !has_chr_app, has_chr_spaces, has_chr_sign, has_chr_digits by auto.
        cbn [orb]. now apply has_chr_digits. }
      rewrite XI.
      assert (B : firstn (length (spaces m ++ sign ++ ip0 ++ [c]) - 1) (spaces m ++ sign ++ (ip0 ++ [c]) ++ $"." ++ fp) ++
         skipn (length (spaces m ++ sign ++ ip0 ++ [c])) (spaces m ++ sign ++ (ip0 ++ [c]) ++ $"." ++ fp)
         = spaces m ++ sign ++ ip0 ++ $"." ++ fp).
      { replace (spaces m ++ sign ++ (ip0 ++ [c]) ++ $"." ++ fp) with ((spaces m ++ sign ++ ip0) ++ [c] ++ $"." ++ fp) at 1 by (now rewrite <- !app_assoc).
        replace (length (spaces m ++ sign ++ ip0 ++ [c]) - 1)%nat with (length (spaces m ++ sign ++ ip0)) by (rewrite !app_length; cbn [length]; lia).
        rewrite firstn_app, Nat.sub_diag, firstn_all. cbn [firstn]. rewrite app_nil_r.
        replace (spaces m ++ sign ++ (ip0 ++ [c]) ++ $"." ++ fp) with ((spaces m ++ sign ++ ip0 ++ [c]) ++ $"." ++ fp) by (now rewrite <- !app_assoc).
        rewrite skipn_app, Nat.sub_diag, skipn_all. cbn [skipn app]. now rewrite <- !app_assoc. }
      match goal with |- raw_text (rjust _ ?x) => replace x with (spaces m ++ sign ++ ip0 ++ $"." ++ fp) by (symmetry; exact B) end.
      (* a minus sign leaves no padding *)
      assert (NoPad : sign = $"-" -> m = 0%nat /\ (w_width wo <= length (sign ++ ip0 ++ $"." ++ fp))%nat).
      { intros Hs. assert (num_num v < 0) by (unfold sign in Hs; destruct (Z.ltb_spec (num_num v) 0); [auto|discriminate]).
        assert (waste = 2).
        { unfold waste. assert (0 <? num_num v = false) as -> by (apply Z.ltb_ge; lia). rewrite andb_false_r.
          destruct isint; [discriminate|reflexivity]. }
        unfold m. rewrite !app_length, Hs. cbn [length list_ascii_of_string]. rewrite L. unfold fw, ew. rewrite Ez. change (ndigits (Z.abs 0)) with 1%nat.
        split; lia. }
      apply raw_rjust.
      * exists m, sign, ip0, $".", fp. repeat (split; [auto|]). right. split; auto. right.
        destruct S as [-> | Hs]; [now right|]. left. now apply NoPad.
      * intros fp' X. destruct S as [Hs|Hs].
        { rewrite Hs in X. destruct m; cbn in X; [|discriminate]. destruct ip0 as [|d ip0]; [discriminate|].
          inversion X; subst. inversion Di. discriminate. }
        rewrite app_length. destruct (NoPad Hs). lia.
    + apply raw_rjust.
      * exists m, sign, ip, $".", fp. repeat (split; [auto|]). right. auto.
      * intros fp' X. destruct m; cbn in X; [|discriminate]. destruct S as [Hs|Hs]; rewrite Hs in X; cbn in X;
          (destruct ip as [|d ip]; [contradiction|]); inversion X; subst; inversion Di; discriminate.
  - destruct (str_of_Z_shape z) as (sign & ip & E & S & Di & Ni). rewrite E.
    set (pre := if (0 <? num_num v) && negb (w_abuse wo) then " "%char :: sign ++ ip else sign ++ ip).
    assert (Pre : exists k, pre = spaces k ++ sign ++ ip).
    { unfold pre. destruct ((0 <? num_num v) && negb (w_abuse wo)); [exists 1%nat|exists 0%nat]; reflexivity. }
    destruct Pre as (k & Ek). fold pre.
    assert (NS : forall y fp', spaces k ++ sign ++ ip ++ y <> $"-." ++ fp').
    { intros y fp' X. destruct k; [|discriminate]. destruct S as [Hs|Hs]; rewrite Hs in X; cbn in X;
        (destruct ip as [|d ip]; [contradiction|]); inversion X; subst; inversion Di; discriminate. }
    destruct (Z.leb_spec (Z.of_nat (length pre)) (Z.of_nat (w_width wo) - 2)).
    + apply raw_rjust.
      * exists k, sign, ip, $".", (repeat "0"%char (w_width wo - length (pre ++ $"."))).
        split; [unfold ljust_with; rewrite Ek, <- !app_assoc; reflexivity|]. repeat (split; [auto using zeros_digits|]).
        right. auto.
      * intros fp' X. exfalso. unfold ljust_with in X. rewrite Ek, <- !app_assoc in X. revert X. apply NS.
    + apply raw_rjust.
      * exists k, sign, ip, [], []. cbn [app]. rewrite app_nil_r. split; [now rewrite Ek|]. repeat (split; [auto; constructor|]). left. auto.
      * intros fp' X. exfalso. rewrite Ek in X. apply (NS [] fp'). now rewrite app_nil_r.
Qed.

(** ** Reading the fixed-point text *)

Lemma digits_value_bound s acc : 0 <= acc -> all_digits s ->
  fold_left (fun a c => 10 * a + digit_val c) s acc < (acc + 1) * 10 ^ Z.of_nat (length s).
Proof.
  intros Ha H; revert acc Ha; induction H as [|c s Hc H IH]; intros acc Ha.
  - cbn. lia.
  - cbn [fold_left length]. apply is_digit_range in Hc. eapply Z.lt_le_trans; [apply IH; lia|].
    rewrite Nat2Z.inj_succ, Z.pow_succ_r by lia.
    assert (0 < 10 ^ Z.of_nat (length s)) by (apply Z.pow_pos_nonneg; lia). nia.
Qed.

Definition reads_as (s : str) (f : spec_float) : Prop :=
  forall ro, (length s <= r_width ro)%nat -> read_fort_float ro s = Ok (if r_preserve ro then NEndf f s else NFlt f).

Lemma fortstr2float_none sp pr s : fortstr2float sp pr None s = fortstr2float sp pr (Some (length s)) s.
Proof. unfold fortstr2float. now rewrite firstn_all. Qed.

Lemma reads_as_plain s f : reads_as s f -> fortstr2float true false None s = Ok (NFlt f).
Proof.
  intros H. rewrite fortstr2float_none.
  apply (H {| r_spaces := true; r_blank := true; r_send := true; r_tpid := true; r_width := length s; r_preserve := false |}).
  cbn. lia.
Qed.

Lemma plain_text_reads t : plain_text t -> (length t <= 15)%nat ->
  exists f, is_finite f = true /\ valid64 f /\ (Qabs (val f) < p10 16)%Q /\ forall k, reads_as (spaces k ++ t) f.
Proof.
  intros (k & sign & ip & point & fp & -> & S & Di & Df & N & P) L.
  set (neg := match sign with [] => false | _ => true end).
  assert (T : fortran_text (sign ++ ip ++ point ++ fp) neg (digits_value (ip ++ fp)) (0 - Z.of_nat (length fp))).
  { exists sign, ip, point, fp, false, [], 0. rewrite app_nil_r. split; [reflexivity|].
    split; [unfold neg; destruct S as [-> | ->]; auto|]. split; [now apply digit_string_all|].
    split; [now apply digit_string_all|]. split; [exact N|]. split; [destruct P as [P|[-> P]]; [now left|right; auto]|].
    split; [constructor|]. auto. }
  set (m := digits_value (ip ++ fp)) in *. set (e := 0 - Z.of_nat (length fp)) in *.
  assert (M : 0 <= m < 10 ^ 15).
  { split; [apply (fortran_text_nonneg _ _ _ _ T)|]. unfold m.
    eapply Z.lt_le_trans; [apply digits_value_bound; [lia|now apply Forall_app]|]. rewrite Z.mul_1_l.
    apply Z.pow_le_mono_r; [lia|]. rewrite !app_length in *. lia. }
  assert (DQ : (decimalQ m e <= inject_Z (10 ^ 15))%Q).
  { unfold decimalQ. fold (p10 e). assert (p10 e <= p10 0)%Q by (apply p10_le; lia). rewrite p10_0 in H.
    pose proof (p10_pos e). assert (0 <= inject_Z m)%Q by (apply iz_nonneg; lia).
    assert (inject_Z m <= inject_Z (10 ^ 15))%Q by (apply iz_le; lia). nra. }
  assert (Dp : 0 <= dec_num m e) by (unfold dec_num; assert (0 < 10 ^ Z.max 0 e) by (apply Z.pow_pos_nonneg; lia); nia).
  assert (OV : (frac (dec_num m e) (dec_den e) < ovf)%Q).
  { rewrite dec_frac. eapply Qle_lt_trans; [exact DQ|]. reflexivity. }
  destruct (round64_spec neg _ _ Dp (dec_den_pos e) OV) as (F & V & _ & _).
  exists (round64 neg (dec_num m e) (dec_den e)). split; [exact F|]. split; [exact V|]. split.
  - pose proof (round64_nearest neg _ _ Dp (dec_den_pos e) OV (S754_zero false) eq_refl I) as R.
    rewrite val_zero, dec_frac in R. assert (D0 : (0 <= decimalQ m e)%Q).
    { rewrite <- dec_frac. unfold frac. apply Qle_shift_div_l; [apply iz_pos, dec_den_pos|]. rewrite Qmult_0_l. now apply iz_nonneg. }
    assert (A : (Qabs (sgnQ neg * decimalQ m e) == decimalQ m e)%Q).
    { rewrite Qabs_Qmult, (Qabs_pos (decimalQ m e)) by auto. destruct neg; [change (Qabs (sgnQ true)) with 1%Q|change (Qabs (sgnQ false)) with 1%Q]; ring. }
    setoid_replace (0 - sgnQ neg * decimalQ m e)%Q with (- (sgnQ neg * decimalQ m e))%Q in R by ring.
    rewrite Qabs_opp, A in R. set (f := round64 neg (dec_num m e) (dec_den e)) in *.
    pose proof (Qabs_triangle (val f - sgnQ neg * decimalQ m e) (sgnQ neg * decimalQ m e)) as Tr.
    setoid_replace (val f - sgnQ neg * decimalQ m e + sgnQ neg * decimalQ m e)%Q with (val f) in Tr by ring.
    rewrite A in Tr. assert (2 * inject_Z (10 ^ 15) < p10 16)%Q by reflexivity. lra.
  - intros j ro Lr. apply (read_fortran ro _ (sign ++ ip ++ point ++ fp)); auto.
    destruct (fortran_text_fstr _ _ _ _ T) as [Ft _].
    destruct (r_spaces ro).
    + exists [], []. split; [constructor|]. split; [constructor|]. rewrite app_assoc, spaces_app, remove_chr_app, remove_spaces.
      cbn [app]. rewrite app_nil_r. now apply remove_space_fstr.
    + exists (spaces (j + k)), []. split; [apply spaces_ws|]. split; [constructor|].
      now rewrite app_nil_r, app_assoc, spaces_app.
Qed.

(** ** Exact differences *)

Lemma valid_scaled f : is_finite f = true -> valid64 f ->
  exists M E, (val f == inject_Z M * p2 E)%Q /\ Z.abs M < 2 ^ 53 /\ -1074 <= E <= 971.
Proof.
  intros F V. destruct f as [s|s| |s m e]; try discriminate.
  - exists 0, 0. rewrite val_zero. split; [reflexivity|lia].
  - exists ((if s then -1 else 1) * Zpos m), e. rewrite val_finite.
    split; [rewrite inject_Z_mult; destruct s; reflexivity|]. cbn in V. destruct s; lia.
Qed.

Lemma float_dist_frac x y : let n := Z.abs (sf_num x * sf_den y - sf_num y * sf_den x) in
  let d := sf_den x * sf_den y in 0 <= n /\ 0 < d /\ (frac n d == Qabs (val x - val y))%Q.
Proof.
  intros n d. pose proof (sf_den_pos x) as Dx. pose proof (sf_den_pos y) as Dy.
  assert (Dp : 0 < d) by (unfold d; nia). split; [unfold n; lia|]. split; [exact Dp|].
  symmetry. apply frac_unique; auto. unfold d, n. rewrite <- (Qabs_pos (inject_Z (sf_den x * sf_den y))) by (pose proof (iz_pos _ Dp); unfold d in *; lra).
  rewrite <- Qabs_Qmult.
  assert (X : ((val x - val y) * inject_Z (sf_den x * sf_den y) == inject_Z (sf_num x * sf_den y - sf_num y * sf_den x))%Q).
  { unfold Z.sub. rewrite inject_Z_plus, inject_Z_opp, !inject_Z_mult.
    pose proof (frac_mul (sf_num x) (sf_den x) Dx) as Fx. pose proof (frac_mul (sf_num y) (sf_den y) Dy) as Fy.
    change (frac (sf_num x) (sf_den x)) with (val x) in Fx. change (frac (sf_num y) (sf_den y)) with (val y) in Fy.
    rewrite <- Fx, <- Fy. ring. }
  rewrite X. reflexivity.
Qed.

Lemma float_dist_exact x y : is_finite x = true -> valid64 x -> is_finite y = true -> valid64 y ->
  (Qabs (val x - val y) <= (1 # 2) * Qabs (val y))%Q ->
  is_finite (float_dist x y) = true /\ (val (float_dist x y) == Qabs (val x - val y))%Q.
Proof.
  intros Fx Vx Fy Vy H. destruct (float_dist_frac x y) as (Hn & Hd & HF). unfold float_dist.
  set (n := Z.abs (sf_num x * sf_den y - sf_num y * sf_den x)) in *. set (d := sf_den x * sf_den y) in *.
  destruct (valid_scaled x Fx Vx) as (Mx & Ex & Qx & Bx & Rx). destruct (valid_scaled y Fy Vy) as (My & Ey & Qy & By & Ry).
  set (E := Z.min Ex Ey). set (K := Mx * 2 ^ (Ex - E) - My * 2 ^ (Ey - E)).
  assert (HK : (val x - val y == inject_Z K * p2 E)%Q).
  { unfold K, Z.sub. rewrite inject_Z_plus, inject_Z_opp, !inject_Z_mult, <- !p2_Z by lia.
    rewrite Qx, Qy. replace Ex with (Ex + - E + E) at 1 by lia. replace Ey with (Ey + - E + E) at 1 by lia.
    rewrite !p2_plus. ring. }
  assert (HA : (Qabs (val x - val y) == inject_Z (Z.abs K) * p2 E)%Q).
  { rewrite HK, Qabs_Qmult, (Qabs_pos (p2 E)) by (pose proof (p2_pos E); lra). reflexivity. }
  assert (Ax : (Qabs (val x) == inject_Z (Z.abs Mx) * p2 Ex)%Q)
    by (rewrite Qx, Qabs_Qmult, (Qabs_pos (p2 Ex)) by (pose proof (p2_pos Ex); lra); reflexivity).
  assert (Ay : (Qabs (val y) == inject_Z (Z.abs My) * p2 Ey)%Q)
    by (rewrite Qy, Qabs_Qmult, (Qabs_pos (p2 Ey)) by (pose proof (p2_pos Ey); lra); reflexivity).
  assert (Hxy : (Qabs (val x - val y) <= Qabs (val x))%Q).
  { pose proof (Qabs_triangle (- (val x - val y)) (val x)) as Tr. rewrite Qabs_opp in Tr.
    setoid_replace (- (val x - val y) + val x)%Q with (val y) in Tr by ring. lra. }
  assert (KB : Z.abs K <= 2 ^ 53).
  { assert (inject_Z (Z.abs K) <= inject_Z (Z.abs Mx) \/ inject_Z (Z.abs K) <= inject_Z (Z.abs My))%Q as [C|C].
    - destruct (Z.le_gt_cases Ex Ey) as [L|L].
      + left. apply (Qmult_le_r _ _ (p2 E) (p2_pos E)). rewrite <- HA. replace E with Ex by lia. rewrite <- Ax. exact Hxy.
      + right. apply (Qmult_le_r _ _ (p2 E) (p2_pos E)). rewrite <- HA. replace E with Ey by lia. rewrite <- Ay.
        pose proof (Qabs_nonneg (val y)). lra.
    - apply (proj1 (iz_le _ _)) in C. lia.
    - apply (proj1 (iz_le _ _)) in C. lia. }
  assert (OV : (frac n d < ovf)%Q).
  { rewrite HF. eapply Qle_lt_trans; [exact H|]. rewrite Ay.
    assert (inject_Z (Z.abs My) <= p2 53)%Q by (rewrite p2_Z by lia; apply iz_le; lia).
    assert (p2 Ey <= p2 971)%Q by (apply p2_le; lia). pose proof (p2_pos Ey).
    assert (0 <= inject_Z (Z.abs My))%Q by (apply iz_nonneg; lia).
    apply Qle_lt_trans with ((1 # 2) * (p2 53 * p2 971))%Q; [|reflexivity].
    apply Qmult_le_l; [reflexivity|]. apply Qle_trans with (p2 53 * p2 Ey)%Q; [now apply Qmult_le_compat_r; [|lra]|].
    apply Qmult_le_l; auto. apply p2_pos. }
  destruct (round64_exact_gen false n d (Z.abs K) E Hd ltac:(lia) ltac:(lia) Hn ltac:(now rewrite HF, HA) OV) as [A B].
  split; [exact A|]. rewrite B, HF. cbn [sgnQ]. ring.
Qed.

(** the comparison of the two distances decides correctly *)
Lemma closer x y r : is_finite x = true -> valid64 x -> is_finite y = true -> valid64 y ->
  is_finite r = true -> valid64 r -> (val r == 0 \/ p2 (-1022) <= Qabs (val r))%Q ->
  (Qabs (val x) < p10 16)%Q -> (Qabs (val r) <= (1001 # 1000) * p10 308)%Q ->
  (Qabs (val y - val r) <= (1 # 4) * Qabs (val r))%Q ->
  let d1 := float_dist x r in let d2 := float_dist y r in
  (frac_ltb (sf_num d2) (sf_den d2) (sf_num d1) (sf_den d1) = false -> (Qabs (val x - val r) <= Qabs (val y - val r))%Q) /\
  ((val r == 0 -> False) -> (val x == 0)%Q -> frac_ltb (sf_num d2) (sf_den d2) (sf_num d1) (sf_den d1) = true).
Proof.
  intros Fx Vx Fy Vy Fr Vr R0 Bx Br Hy d1 d2.
  destruct (float_dist_exact y r Fy Vy Fr Vr) as [F2 V2].
  { pose proof (Qabs_nonneg (val r)). lra. }
  fold d2 in F2, V2.
  assert (LT : frac_ltb (sf_num d2) (sf_den d2) (sf_num d1) (sf_den d1) = true <-> (val d2 < val d1)%Q).
  { unfold frac_ltb. rewrite Z.ltb_lt. symmetry. apply frac_lt_cross; apply sf_den_pos. }
  split.
  - intros NL. assert (LE : (val d1 <= val d2)%Q).
    { apply Qnot_lt_le. intros C. apply LT in C. congruence. }
    destruct (Qlt_le_dec ((1 # 2) * Qabs (val r)) (Qabs (val x - val r))) as [G|G].
    2:{ destruct (float_dist_exact x r Fx Vx Fr Vr G) as [_ V1]. fold d1 in V1. lra. }
    exfalso. destruct (float_dist_frac x r) as (Hn & Hd & HF).
    set (n := Z.abs (sf_num x * sf_den r - sf_num r * sf_den x)) in *. set (d := sf_den x * sf_den r) in *.
    assert (OV : (frac n d < ovf)%Q).
    { rewrite HF. pose proof (Qabs_triangle (val x) (- val r)) as Tr. rewrite Qabs_opp in Tr.
      setoid_replace (val x + - val r)%Q with (val x - val r)%Q in Tr by ring.
      assert (p10 16 + (1001 # 1000) * p10 308 < ovf)%Q by reflexivity. lra. }
    destruct R0 as [R0|R0].
    { (* val r = 0 *)
      assert (Y0 : (Qabs (val y - val r) == 0)%Q).
      { assert (Qabs (val r) == 0)%Q as Z0 by (rewrite R0; reflexivity). pose proof (Qabs_nonneg (val y - val r)). lra. }
      assert (valid_x : (frac n d == Qabs (val x))%Q) by (rewrite HF, R0; now setoid_replace (val x - 0)%Q with (val x) by ring).
      destruct (valid_scaled x Fx Vx) as (M & E & Q & B & RE).
      destruct (round64_exact_gen false n d (Z.abs M) E Hd ltac:(lia) ltac:(lia) Hn) as [_ X]; auto.
      { rewrite valid_x, Q, Qabs_Qmult, (Qabs_pos (p2 E)) by (pose proof (p2_pos E); lra). reflexivity. }
      change (round64 false n d) with d1 in X. cbn [sgnQ] in X. rewrite HF in X.
      assert (Qabs (val r) == 0)%Q as Z0 by (rewrite R0; reflexivity). lra. }
    assert (Np : 0 < n).
    { destruct (Z.eq_dec n 0) as [E|]; [|lia]. rewrite E in HF. assert (frac 0 d == 0)%Q as Z0 by (unfold frac; change (inject_Z 0) with 0%Q; pose proof (iz_pos d Hd); field; lra).
      pose proof (Qabs_nonneg (val r)). lra. }
    pose proof (round64_rel false n d Hd Np) as RR. rewrite HF in RR.
    change (round64 false n d) with d1 in RR. cbn [sgnQ] in RR.
    assert (P3 : (p2 (-1023) <= Qabs (val x - val r))%Q).
    { assert (p2 (-1022) == 2 * p2 (-1023))%Q by reflexivity. lra. }
    specialize (RR P3 ltac:(now rewrite <- HF)). apply Qabs_Qle_condition in RR as [RR _].
    assert (p2 (-52) <= 1 # 100)%Q by (vm_compute; discriminate).
    assert (p2 (-52) * Qabs (val x - val r) <= (1 # 100) * Qabs (val x - val r))%Q by (apply Qmult_le_compat_r; [auto|apply Qabs_nonneg]).
    pose proof (p2_pos (-1022)). lra.
  - intros Nr X0. apply LT. destruct R0 as [R0|R0]; [now destruct Nr|].
    assert (D1 : (val d1 == Qabs (val r))%Q).
    { destruct (float_dist_frac x r) as (Hn & Hd & HF).
      assert (Er : (Qabs (val x - val r) == Qabs (val r))%Q).
      { rewrite X0. setoid_replace (0 - val r)%Q with (- val r)%Q by ring. apply Qabs_opp. }
      rewrite Er in HF. destruct (valid_scaled r Fr Vr) as (M & E & Q & B & RE).
      destruct (round64_exact_gen false _ _ (Z.abs M) E Hd ltac:(lia) ltac:(lia) Hn) as [_ X].
      - rewrite HF, Q, Qabs_Qmult, (Qabs_pos (p2 E)) by (pose proof (p2_pos E); lra). reflexivity.
      - rewrite HF. assert ((1001 # 1000) * p10 308 < ovf)%Q by reflexivity. lra.
      - unfold d1, float_dist. rewrite X, HF. cbn [sgnQ]. ring. }
    rewrite D1, V2. pose proof (p2_pos (-1022)). lra.
Qed.

(** ** The exponential form as a number *)

Definition exp_float (v : num) (p : nat) (N e : Z) : spec_float :=
  round64 (sgn_of v) (dec_num N (e - Z.of_nat p)) (dec_den (e - Z.of_nat p)).
(** signed value *)
Definition sv (v : num) : Q := frac (num_num v) (num_den v).

Lemma sv_abs v : (sv v == sgnQ (sgn_of v) * absv v)%Q.
Proof.
  unfold sv, absv, sgn_of, is_pos, frac. destruct (Z.leb_spec 0 (num_num v)); cbn [negb sgnQ].
  - rewrite Z.abs_eq by lia. ring.
  - rewrite Z.abs_neq by lia. rewrite inject_Z_opp. field. pose proof (iz_pos _ (num_den_pos v)). lra.
Qed.
Lemma absv_Qabs v : (absv v == Qabs (sv v))%Q.
Proof.
  rewrite sv_abs, Qabs_Qmult, (Qabs_pos (absv v)).
  - destruct (sgn_of v); [change (Qabs (sgnQ true)) with 1%Q|change (Qabs (sgnQ false)) with 1%Q]; ring.
  - apply frac_nonneg; [lia|apply num_den_pos].
Qed.

Lemma dec_num_nonneg N e : 0 <= N -> 0 <= dec_num N e.
Proof. intros. unfold dec_num. assert (0 < 10 ^ Z.max 0 e) by (apply Z.pow_pos_nonneg; lia). nia. Qed.

Lemma sgnQ_abs neg x : (Qabs (sgnQ neg * x) == Qabs x)%Q.
Proof. rewrite Qabs_Qmult. destruct neg; [change (Qabs (sgnQ true)) with 1%Q|change (Qabs (sgnQ false)) with 1%Q]; ring. Qed.

Lemma good_form_q wo v N e nexp : wide_ok wo -> good_form wo v N e nexp ->
  let p := places wo v nexp in let q := (inject_Z N * p10 (e - Z.of_nat p))%Q in
  (p10 (e - Z.of_nat p) <= (1 # 10) * q)%Q /\ (0 < q)%Q /\ (Qabs (absv v - q) <= (6 # 100) * absv v)%Q.
Proof.
  intros W (Ne & Er & Nb & DE & _) p q. destruct (places_bounds wo v nexp W Ne) as [Pb _]. fold p in Nb, DE, Pb.
  pose proof (p10_pos (e - Z.of_nat p)) as PP.
  assert (T : 10 <= N).
  { assert (10 ^ 1 <= 10 ^ Z.of_nat p) by (apply Z.pow_le_mono_r; lia). lia. }
  assert (TQ : (10 <= inject_Z N)%Q) by (change 10%Q with (inject_Z 10); now apply iz_le).
  assert (U : (p10 (e - Z.of_nat p) <= (1 # 10) * q)%Q) by (unfold q; nra).
  split; [exact U|]. split; [lra|]. fold q in DE.
  assert (A0 : (0 <= absv v)%Q) by (apply frac_nonneg; [lia|apply num_den_pos]).
  assert (C48 : (p2 (-48) <= 1 # 1000)%Q) by (vm_compute; discriminate).
  assert (p2 (-48) * absv v <= (1 # 1000) * absv v)%Q by (apply Qmult_le_compat_r; auto).
  apply Qabs_Qle_condition in DE as [D1 D2]. apply Qabs_le; lra.
Qed.

Lemma exp_float_spec wo v N e nexp : wide_ok wo -> good_form wo v N e nexp ->
  (p2 (-1022) <= absv v)%Q -> (absv v <= p10 308)%Q ->
  let p := places wo v nexp in let q := (inject_Z N * p10 (e - Z.of_nat p))%Q in let f := exp_float v p N e in
  is_finite f = true /\ valid64 f /\ sf_sign f = sgn_of v /\
  (Qabs (val f - sgnQ (sgn_of v) * q) <= p2 (-52) * q)%Q /\ (p2 (-1023) <= q)%Q /\ (q < ovf)%Q.
Proof.
  intros W G R1 R2 p q f. destruct (good_form_q wo v N e nexp W G) as (U & Qp & D). fold p q in U, Qp, D.
  assert (HN : 0 < N) by (destruct G as (_ & _ & Nb & _); assert (0 < 10 ^ Z.of_nat (places wo v nexp)) by (apply Z.pow_pos_nonneg; lia); lia).
  set (k := e - Z.of_nat p) in *.
  assert (FQ : (frac (dec_num N k) (dec_den k) == q)%Q) by (rewrite dec_frac; reflexivity).
  assert (Dn : 0 < dec_num N k) by (unfold dec_num; assert (0 < 10 ^ Z.max 0 k) by (apply Z.pow_pos_nonneg; lia); nia).
  apply Qabs_Qle_condition in D as [D1 D2].
  assert (OV : (q < ovf)%Q) by (assert ((106 # 100) * p10 308 < ovf)%Q by reflexivity; lra).
  assert (UF : (p2 (-1023) <= q)%Q) by (assert (p2 (-1022) == 2 * p2 (-1023))%Q by reflexivity; pose proof (p2_pos (-1023)); lra).
  destruct (round64_spec (sgn_of v) (dec_num N k) (dec_den k)) as (F & V & S & _); try lia; [apply dec_den_pos|now rewrite FQ|].
  split; [exact F|]. split; [exact V|]. split; [exact S|]. split; [|auto].
  unfold f, exp_float. fold k. rewrite <- FQ. apply round64_rel; auto; [apply dec_den_pos|now rewrite FQ|now rewrite FQ].
Qed.

(** zero *)
Lemma exp_form_zero fuel wo v : wide_ok wo -> plain v -> num_num v = 0 ->
  float2expformstr_fuel (S fuel) wo v = Ok (exp_string wo v (places wo v 1) 0 0 1).
Proof.
  intros W Pl Z0. assert (Ne : (1 <= 1 <= 3)%nat) by lia. destruct (places_bounds wo v 1 W Ne) as [Pb Pe].
  assert (ED : exp_digits 0 (num_den v) = 1%nat).
  { unfold exp_digits. cbn [Z.eqb]. destruct (_ && _); [reflexivity|]. destruct (_ && _) eqn:E; [|reflexivity].
    apply andb_true_iff in E as [E _]. exfalso. unfold sf_le_frac, frac_leb in E. apply Z.leb_le in E.
    pose proof (num_den_pos v). assert (0 < sf_num lit_1em99) by (vm_compute; reflexivity). nia. }
  assert (exists mu, scaled_mantissa (w_libm wo) v 0 = Ok mu /\ sf_num mu = 0 /\ sf_den mu = 1) as (mu & SM & M0 & M1).
  { destruct v as [z|f|f o]; [|destruct f as [s|s| |s m e]; try discriminate Pl|contradiction]; cbn [num_num sf_num] in Z0.
    - subst. exists (S754_zero false). split; [reflexivity|]. auto.
    - exists (S754_zero false). split; [reflexivity|]. auto.
    - exfalso. assert (0 < 2 ^ Z.max 0 e) by (apply Z.pow_pos_nonneg; lia). destruct s; nia. }
  rewrite (expform_unfold fuel wo v mu W); rewrite Z0 in *; change (Z.abs 0) with 0 in *; cbn [Z.eqb]; rewrite ?ED; auto.
  unfold expform_body. rewrite M0, M1. assert (R0 : rhe (0 * 10 ^ Z.of_nat (places wo v 1)) 1 = 0) by reflexivity.
  rewrite R0. rewrite exp_string_length by lia. change (0 / 10 ^ Z.of_nat (places wo v 1)) with (Z.div 0 (10 ^ Z.of_nat (places wo v 1))).
  rewrite Z.div_0_l by (apply Z.pow_nonzero; lia). change (ndigits 0) with 1%nat. change (ndigits (Z.abs 0)) with 1%nat.
  destruct (Nat.ltb_spec (w_width wo) (sign_cols wo v + (1 + 1 + places wo v 1) + b2n (w_keepE wo) + 1 + Nat.max 1 1)); [change (Nat.max 1 1) with 1%nat in *; lia|reflexivity].
Qed.

(** shape of the exponential form of any number in range *)
Definition form_ok (wo : wopts) (v : num) (N e : Z) (nexp : nat) : Prop :=
  (num_num v = 0 /\ N = 0 /\ e = 0 /\ nexp = 1%nat) \/ (num_num v <> 0 /\ good_form wo v N e nexp).

Definition range_ok (v : num) : Prop := num_num v = 0 \/ in_range (absv v).
Definition range_mid (v : num) : Prop := num_num v = 0 \/ ((p2 (-1022) <= absv v)%Q /\ (absv v <= p10 308)%Q).

Lemma range_mid_ok v : range_mid v -> range_ok v.
Proof. intros [H|[A B]]; [now left|]. right. split; auto. pose proof (p10_pos 308). lra. Qed.

Lemma exp_form_all wo v : libm_ok (w_libm wo) -> wide_ok wo -> plain v -> range_ok v ->
  exists N e nexp, form_ok wo v N e nexp /\ (1 <= nexp <= 3)%nat /\ 0 <= N /\ -308 <= e <= 308 /\
    (ndigits (Z.abs e) <= nexp)%nat /\
    float2expformstr wo v = Ok (exp_string wo v (places wo v nexp) N e nexp) /\
    length (exp_string wo v (places wo v nexp) N e nexp) = w_width wo.
Proof.
  intros LM W Pl R. unfold float2expformstr.
  assert (G : exists N e nexp, form_ok wo v N e nexp /\ (1 <= nexp <= 3)%nat /\ 0 <= N < 10 * 10 ^ Z.of_nat (places wo v nexp) /\
    -308 <= e <= 308 /\ (ndigits (Z.abs e) <= nexp)%nat /\
    float2expformstr_fuel 20 wo v = Ok (exp_string wo v (places wo v nexp) N e nexp)).
  { destruct (Z.eq_dec (num_num v) 0) as [Z0|Nz].
    - exists 0, 0, 1%nat. split; [left; auto|]. split; [lia|].
      assert (0 < 10 ^ Z.of_nat (places wo v 1)) by (apply Z.pow_pos_nonneg; lia).
      split; [lia|]. split; [lia|]. split; [cbn; lia|]. now apply exp_form_zero.
    - destruct R as [R|R]; [contradiction|].
      destruct (exp_form 18 wo v LM W Pl Nz R) as (N & e & nexp & G & E). exists N, e, nexp.
      split; [right; auto|]. destruct G as (Ne & Er & Nb & _ & L).
      assert (0 < 10 ^ Z.of_nat (places wo v nexp)) by (apply Z.pow_pos_nonneg; lia).
      repeat (split; [lia|]). exact E. }
  destruct G as (N & e & nexp & F & Ne & Nb & Er & L & E). exists N, e, nexp.
  destruct (places_bounds wo v nexp W Ne) as [Pb Pe].
  repeat (split; [auto; lia|]). rewrite exp_string_length by lia.
  assert (ndigits (N / 10 ^ Z.of_nat (places wo v nexp)) = 1%nat) as ->.
  { assert (0 < 10 ^ Z.of_nat (places wo v nexp)) by (apply Z.pow_pos_nonneg; lia).
    apply ndigits_small. split; [apply Z.div_pos; lia|]. apply Z.div_lt_upper_bound; lia. }
  rewrite Nat.max_l by lia. lia.
Qed.

(** ** float(val) *)
Definition plain_valid (v : num) : Prop :=
  match v with NInt _ => True | NFlt f => is_finite f = true /\ valid64 f | NEndf _ _ => False end.
Lemma plain_valid_plain v : plain_valid v -> plain v.
Proof. destruct v; cbn; tauto. Qed.

Lemma num_to_sf_spec v : plain_valid v -> range_mid v -> let r := num_to_sf v in
  is_finite r = true /\ valid64 r /\ (Qabs (val r - sv v) <= p2 (-53) * absv v)%Q /\
  (num_num v = 0 -> (val r == 0)%Q).
Proof.
  intros Pv R r. destruct v as [z|f|f o]; [| |contradiction].
  - unfold r. cbn [num_to_sf]. unfold round64_signed.
    assert (G : forall neg n, 0 <= n -> n = Z.abs z -> (if z <? 0 then true else false) = neg ->
       is_finite (round64 neg n 1) = true /\ valid64 (round64 neg n 1) /\
       (Qabs (val (round64 neg n 1) - sv (NInt z)) <= p2 (-53) * absv (NInt z))%Q /\ (z = 0 -> (val (round64 neg n 1) == 0)%Q)).
    { intros neg n Hn En Eneg.
      assert (Eabs : absv (NInt z) = frac n 1) by (unfold absv; cbn; now rewrite En).
      assert (OV : (frac n 1 < ovf)%Q).
      { rewrite <- Eabs. destruct R as [R|[_ R]].
        - cbn in R. subst z. reflexivity.
        - assert (p10 308 < ovf)%Q by reflexivity. lra. }
      destruct (round64_spec neg n 1 Hn eq_refl OV) as (F & V & S & _). split; [exact F|]. split; [exact V|]. split.
      - assert (Es : (sv (NInt z) == sgnQ neg * frac n 1)%Q).
        { rewrite sv_abs, Eabs. unfold sgn_of, is_pos. cbn [num_num]. rewrite Z.leb_antisym, negb_involutive.
          subst neg. destruct (z <? 0); reflexivity. }
        rewrite Es, Eabs. destruct (Z.eq_dec n 0) as [E0|N0].
        + rewrite E0. unfold round64. cbn [Z.eqb]. rewrite val_zero. destruct neg; vm_compute; discriminate.
        + apply round64_rel_normal; auto; try lia. apply Qle_trans with 1%Q; [vm_compute; discriminate|].
          unfold frac. change (inject_Z 1) with 1%Q. assert (1 <= inject_Z n)%Q by (change 1%Q with (inject_Z 1); apply iz_le; lia).
          setoid_replace (inject_Z n / 1)%Q with (inject_Z n) by field. exact H.
      - intros ->. cbn in En. subst n. unfold round64. cbn [Z.eqb]. now rewrite val_zero. }
    destruct (Z.ltb_spec z 0); apply G; try lia.
  - destruct Pv as [F V]. unfold r. cbn [num_to_sf]. split; [exact F|]. split; [exact V|].
    change (sv (NFlt f)) with (val f). split.
    + setoid_replace (val f - val f)%Q with 0%Q by ring. change (Qabs 0) with 0%Q.
      assert (0 <= absv (NFlt f))%Q by (apply frac_nonneg; [lia|apply num_den_pos]). pose proof (p2_pos (-53)). nra.
    + intros E. unfold val. cbn in E. rewrite E. unfold frac. change (inject_Z 0) with 0%Q. field.
      pose proof (iz_pos _ (sf_den_pos f)). lra.
Qed.

Lemma exp_string_reads wo v p N e nexp ro : (1 <= p)%nat -> 0 <= N ->
  (length (exp_string wo v p N e nexp) <= r_width ro)%nat ->
  (r_spaces ro = true \/ (nexp <= ndigits (Z.abs e))%nat) ->
  read_fort_float ro (exp_string wo v p N e nexp) =
    Ok (if r_preserve ro then NEndf (exp_float v p N e) (exp_string wo v p N e nexp) else NFlt (exp_float v p N e)).
Proof. intros. now apply read_exp_string. Qed.

Lemma exp_float_zero v p e : val (exp_float v p 0 e) = val (S754_zero (sgn_of v)).
Proof. reflexivity. Qed.

(** the written text: the exponential form, or a fixed-point text at least as close *)
Lemma fort_form wo v : libm_ok (w_libm wo) -> wide_ok wo -> plain_valid v -> range_mid v ->
  exists N e nexp, form_ok wo v N e nexp /\ (1 <= nexp <= 3)%nat /\ 0 <= N /\ -308 <= e <= 308 /\
    (ndigits (Z.abs e) <= nexp)%nat /\
    let p := places wo v nexp in let t := exp_string wo v p N e nexp in
    length t = w_width wo /\ float2expformstr wo v = Ok t /\
    (float2fortstr wo v = Ok t \/
     (w_noexp wo = true /\ exists s x, float2fortstr wo v = Ok s /\ length s = w_width wo /\
        is_finite x = true /\ valid64 x /\ reads_as s x /\
        (Qabs (val x - val (num_to_sf v)) <= Qabs (val (exp_float v p N e) - val (num_to_sf v)))%Q)).
Proof.
  intros LM W Pv R. pose proof (plain_valid_plain v Pv) as Pl.
  destruct (exp_form_all wo v LM W Pl (range_mid_ok v R)) as (N & e & nexp & F & Ne & Nb & Er & L & E & Len).
  exists N, e, nexp. do 5 (split; [assumption|]). intros p t. fold p t in E, Len. split; [exact Len|]. split; [exact E|].
  assert (Unf : float2fortstr wo v = (if negb (w_noexp wo) then Ok t else
      let b := trim_basic (float2basicnumstr wo v) in
      if (w_width wo <? length b)%nat then Ok t else
      do delta1 <- delta_of b v; do delta2 <- delta_of t v;
      if frac_ltb (sf_num delta2) (sf_den delta2) (sf_num delta1) (sf_den delta1) then Ok t else Ok (rjust (w_width wo) b))).
  { unfold float2fortstr, trim_basic. rewrite E. cbn [bind].
    destruct v as [z|f|f o]; [reflexivity| |contradiction]. destruct Pv as [Ff _]. destruct f; try discriminate; reflexivity. }
  destruct (w_noexp wo) eqn:NE; cbn [negb] in Unf; [|now left]. cbv zeta in Unf.
  set (b := trim_basic (float2basicnumstr wo v)) in *.
  destruct (Nat.ltb_spec (w_width wo) (length b)) as [Lb|Lb]; [now left|].
  destruct (places_bounds wo v nexp W Ne) as [Pb _]. fold p in Pb.
  assert (D2 : delta_of t v = Ok (float_dist (exp_float v p N e) (num_to_sf v))).
  { unfold delta_of. rewrite fortstr2float_none.
    pose proof (exp_string_reads wo v p N e nexp {| r_spaces := true; r_blank := true; r_send := true; r_tpid := true; r_width := length t; r_preserve := false |}
      ltac:(lia) Nb ltac:(cbn; unfold t; lia) ltac:(now left)) as X.
    unfold read_fort_float in X. cbn [r_spaces r_preserve r_width] in X. fold t in X. rewrite X. reflexivity. }
  destruct (num_to_sf_spec v Pv R) as (Fr & Vr & Dr & Zr). set (r := num_to_sf v) in *.
  assert (A0 : (0 <= absv v)%Q) by (apply frac_nonneg; [lia|apply num_den_pos]).
  assert (C53 : (p2 (-53) <= 1 # 1000)%Q) by (vm_compute; discriminate).
  assert (C52 : (p2 (-52) <= 1 # 1000)%Q) by (vm_compute; discriminate).
  assert (Dr' : (Qabs (val r - sv v) <= (1 # 1000) * absv v)%Q)
    by (eapply Qle_trans; [exact Dr|apply Qmult_le_compat_r; auto]).
  assert (Fy : is_finite (exp_float v p N e) = true /\ valid64 (exp_float v p N e) /\
     (Qabs (val (exp_float v p N e) - val r) <= (1 # 4) * Qabs (val r))%Q).
  { destruct F as [(Z0 & -> & -> & ->)|(Nz & G)].
    - unfold exp_float. split; [reflexivity|]. split; [exact I|]. rewrite (Zr Z0). vm_compute. discriminate.
    - destruct R as [R|[R1 R2]]; [contradiction|].
      destruct (exp_float_spec wo v N e nexp W G R1 R2) as (Ff & Vf & _ & Df & _ & _). fold p in Ff, Vf, Df.
      split; [exact Ff|]. split; [exact Vf|].
      destruct (good_form_q wo v N e nexp W G) as (_ & Qp & Dq). fold p in Qp, Dq.
      set (q := (inject_Z N * p10 (e - Z.of_nat p))%Q) in *. set (y := val (exp_float v p N e)) in *.
      set (g := sgnQ (sgn_of v)) in *.
      assert (A1 : (Qabs (g * q - sv v) <= (6 # 100) * absv v)%Q).
      { rewrite sv_abs. fold g. setoid_replace (g * q - g * absv v)%Q with (- (g * (absv v - q)))%Q by ring.
        unfold g. rewrite Qabs_opp, sgnQ_abs. exact Dq. }
      assert (A2 : (p2 (-52) * q <= (1 # 1000) * q)%Q) by (apply Qmult_le_compat_r; [auto|lra]).
      assert (A3 : (Qabs (val r) >= (999 # 1000) * absv v)%Q).
      { pose proof (Qabs_triangle (val r) (- (val r - sv v))) as T. rewrite Qabs_opp in T.
        setoid_replace (val r + - (val r - sv v))%Q with (sv v) in T by ring. rewrite <- absv_Qabs in T. lra. }
      apply Qabs_Qle_condition in Dq as [Dq1 Dq2].
      pose proof (Qabs_triangle (y - g * q) (g * q - sv v)) as T1.
      setoid_replace (y - g * q + (g * q - sv v))%Q with (y - sv v)%Q in T1 by ring.
      pose proof (Qabs_triangle (y - sv v) (- (val r - sv v))) as T2. rewrite Qabs_opp in T2.
      setoid_replace (y - sv v + - (val r - sv v))%Q with (y - val r)%Q in T2 by ring. lra. }
  destruct Fy as (Fy & Vy & Dy).
  assert (Br : (Qabs (val r) <= (1001 # 1000) * p10 308)%Q).
  { pose proof (Qabs_triangle (val r - sv v) (sv v)) as T. rewrite <- absv_Qabs in T.
    setoid_replace (val r - sv v + sv v)%Q with (val r) in T by ring. destruct R as [R|[_ R2]].
    - rewrite (Zr R). vm_compute. discriminate.
    - lra. }
  assert (R0 : (val r == 0 \/ p2 (-1022) <= Qabs (val r))%Q).
  { destruct R as [R|[R1 R2]]; [left; auto|]. right. destruct v as [z|f|f o]; [| |contradiction].
    - assert (1 <= absv (NInt z))%Q.
      { destruct (Z.eq_dec z 0) as [->|]; [vm_compute in R1; destruct R1; reflexivity|].
        unfold absv, frac. cbn. change (inject_Z 1) with 1%Q. setoid_replace (inject_Z (Z.abs z) / 1)%Q with (inject_Z (Z.abs z)) by field.
        change 1%Q with (inject_Z 1). apply iz_le. lia. }
      pose proof (Qabs_triangle (val r) (- (val r - sv (NInt z)))) as T. rewrite Qabs_opp in T.
      setoid_replace (val r + - (val r - sv (NInt z)))%Q with (sv (NInt z)) in T by ring. rewrite <- absv_Qabs in T.
      assert (p2 (-1022) <= 1 # 2)%Q by (vm_compute; discriminate). lra.
    - change (val r) with (sv (NFlt f)). rewrite <- absv_Qabs. exact R1. }
  destruct (trim_shape _ (basic_raw wo v W)) as [Bl|Pt]; fold b in Bl || fold b in Pt.
  - (* blank: read as zero, never chosen *)
    left. assert (D1 : delta_of b v = Ok (float_dist (S754_zero false) r)).
    { unfold delta_of, fortstr2float. apply is_blank_iff in Bl. rewrite Bl. reflexivity. }
    rewrite D1, D2 in Unf. cbn [bind] in Unf.
    destruct (Qeq_dec (val r) 0) as [E0|N0].
    + (* zero is never blank *)
      exfalso. destruct (Z.eq_dec (num_num v) 0) as [Z0|Nz].
      * assert (b = rjust (w_width wo) $"0").
        { unfold b, float2basicnumstr. assert (num_trunc v = 0) as -> by (unfold num_trunc; rewrite Z0; apply Z.quot_0_l; pose proof (num_den_pos v); lia).
          rewrite Z0. cbn [Z.mul Z.eqb andb]. unfold trim_basic. unfold rjust. rewrite has_chr_app, has_chr_spaces. reflexivity. }
        rewrite H in Bl. unfold rjust in Bl. apply Forall_app in Bl as [_ Bl]. inversion Bl. discriminate.
      * destruct R as [R|[R1 R2]]; [contradiction|].
        pose proof (Qabs_triangle (val r) (- (val r - sv v))) as T. rewrite Qabs_opp in T.
        setoid_replace (val r + - (val r - sv v))%Q with (sv v) in T by ring. rewrite <- absv_Qabs in T.
        rewrite E0 in T. change (Qabs 0) with 0%Q in T. rewrite E0 in Dr'. pose proof (p2_pos (-1022)). lra.
    + destruct (closer (S754_zero false) (exp_float v p N e) r) as [_ C]; auto; try exact I.
      { rewrite val_zero. reflexivity. }
      rewrite C in Unf; auto. rewrite val_zero. reflexivity.
  - destruct W as [W1 W2]. destruct (plain_text_reads b Pt ltac:(lia)) as (x & Fx & Vx & Bx & Rx).
    assert (D1 : delta_of b v = Ok (float_dist x r)).
    { unfold delta_of. rewrite (reads_as_plain b x (Rx 0%nat)). reflexivity. }
    rewrite D1, D2 in Unf. cbn [bind] in Unf.
    destruct (closer x (exp_float v p N e) r Fx Vx Fy Vy Fr Vr R0 Bx Br Dy) as [C _].
    destruct (frac_ltb _ _ _ _) eqn:CMP; [now left|]. right. split; [reflexivity|].
    exists (rjust (w_width wo) b), x. split; [exact Unf|]. split; [rewrite length_rjust; lia|].
    split; [exact Fx|]. split; [exact Vx|]. split; [apply Rx|]. now apply C.
Qed.

(** ** Stability *)

Definition range_stable (v : num) : Prop := num_num v = 0 \/ ((p10 (-307) <= absv v)%Q /\ (absv v <= p10 308)%Q).
Lemma range_stable_mid v : range_stable v -> range_mid v.
Proof.
  intros [H|[A B]]; [now left|right]. split; auto. eapply Qle_trans; [|exact A]. vm_compute. discriminate.
Qed.

Lemma val_sign_pos f : is_finite f = true -> (val f == 0 -> False) -> is_pos (NFlt f) = negb (sf_sign f).
Proof.
  intros F N. unfold is_pos. cbn [num_num]. destruct f as [s|s| |s m e]; try discriminate.
  - destruct N. now rewrite val_zero.
  - cbn [sf_num sf_sign]. assert (0 < 2 ^ Z.max 0 e) by (apply Z.pow_pos_nonneg; lia).
    destruct s; cbn [negb]; [apply Z.leb_gt|apply Z.leb_le]; nia.
Qed.

Lemma absv_val f : (absv (NFlt f) == Qabs (val f))%Q.
Proof. rewrite absv_Qabs. reflexivity. Qed.

Lemma exp_stable wo v N e nexp : libm_ok (w_libm wo) -> wide_ok wo -> range_stable v -> num_num v <> 0 ->
  good_form wo v N e nexp ->
  let p := places wo v nexp in let w := NFlt (exp_float v p N e) in
  is_pos w = is_pos v /\
  exists nexp', (1 <= nexp' <= 3)%nat /\ ndigits (Z.abs e) = nexp' /\
    float2expformstr wo w = Ok (exp_string wo v (places wo v nexp') (if N =? 10 ^ Z.of_nat p then 10 ^ Z.of_nat (places wo v nexp') else N) e nexp') /\
    (nexp' = nexp \/ N = 10 ^ Z.of_nat p).
Proof.
  intros LM W R Nz G p w. destruct R as [R|[R1 R2]]; [contradiction|].
  assert (R0 : (p2 (-1022) <= absv v)%Q) by (eapply Qle_trans; [|exact R1]; vm_compute; discriminate).
  destruct (exp_float_spec wo v N e nexp W G R0 R2) as (Ff & Vf & Sf & Df & Uq & Oq). fold p in Ff, Vf, Sf, Df, Uq, Oq.
  destruct (good_form_q wo v N e nexp W G) as (Ut & Qp & Dq). fold p in Ut, Qp, Dq.
  set (q := (inject_Z N * p10 (e - Z.of_nat p))%Q) in *. set (f := exp_float v p N e) in *.
  assert (C52 : (p2 (-52) == 1 # 4503599627370496)%Q) by reflexivity.
  assert (NZf : (val f == 0 -> False)).
  { intros E0. rewrite E0 in Df. apply Qabs_Qle_condition in Df as [D1 D2]. rewrite C52 in *. destruct (sgn_of v); cbn [sgnQ] in *; lra. }
  assert (SG : is_pos w = is_pos v).
  { unfold w. rewrite (val_sign_pos f Ff NZf), Sf. unfold sgn_of. apply negb_involutive. }
  split; [exact SG|].
  pose proof G as (Ne & Er & Nb & _ & Lim). fold p in Nb, Lim.
  destruct (places_bounds wo v nexp W Ne) as [Pb Pe]. fold p in Pb, Pe.
  set (P := 10 ^ Z.of_nat p) in *. assert (Pp : 0 < P) by (apply Z.pow_pos_nonneg; lia).
  assert (Aw : (Qabs (absv w - q) <= p2 (-52) * q)%Q).
  { unfold w. rewrite absv_val. apply Qabs_Qle_condition in Df as [D1 D2].
    destruct (sgn_of v); cbn [sgnQ] in *.
    - rewrite (Qabs_neg (val f)) by (rewrite C52 in *; lra). apply Qabs_le; lra.
    - rewrite (Qabs_pos (val f)) by (rewrite C52 in *; lra). apply Qabs_le; lra. }
  assert (Er2 : -307 <= e).
  { destruct (Z.le_gt_cases (-307) e) as [|C]; auto. exfalso.
    assert (q < p10 (-307))%Q.
    { apply Qle_lt_trans with (inject_Z (10 * P - 1) * p10 (e - Z.of_nat p))%Q.
      - unfold q. apply Qmult_le_compat_r; [apply iz_le; lia|]. pose proof (p10_pos (e - Z.of_nat p)). lra.
      - apply Qlt_le_trans with (inject_Z (10 * P) * p10 (e - Z.of_nat p))%Q.
        + apply Qmult_lt_compat_r; [apply p10_pos|]. apply iz_lt. lia.
        + unfold P. replace (10 * 10 ^ Z.of_nat p) with (10 ^ (Z.of_nat p + 1)) by (rewrite Z.pow_add_r by lia; lia).
          rewrite <- p10_Z by lia. rewrite <- p10_plus. apply p10_le. lia. }
    (* rounding up to 10^-307 would have given e = -307 *)
    apply Qabs_Qle_condition in Dq as [Dq1 Dq2].
    assert (E308 : e = -308) by lia.
    destruct G as (_ & _ & _ & DE & _). fold p in DE. fold q in DE. apply Qabs_Qle_condition in DE as [_ DE].
    assert (Q1 : (q <= p10 (-307) - p10 (e - Z.of_nat p))%Q).
    { assert (X : (inject_Z N <= inject_Z (10 * P) - 1)%Q).
      { setoid_replace (inject_Z (10 * P) - 1)%Q with (inject_Z (10 * P - 1)) by (unfold Z.sub; rewrite inject_Z_plus; reflexivity).
        apply iz_le. lia. }
      assert (Y : (inject_Z (10 * P) * p10 (e - Z.of_nat p) == p10 (-307))%Q).
      { unfold P. replace (10 * 10 ^ Z.of_nat p) with (10 ^ (Z.of_nat p + 1)) by (rewrite Z.pow_add_r by lia; lia).
        rewrite <- p10_Z by lia. rewrite <- p10_plus. rewrite E308. now replace (Z.of_nat p + 1 + (-308 - Z.of_nat p)) with (-307) by lia. }
      rewrite <- Y. unfold q. pose proof (p10_pos (e - Z.of_nat p)). nra. }
    (* absv v >= 10^-307 > q + half a unit *)
    assert (Vb : (p2 (-48) * absv v <= (1 # 4) * p10 (e - Z.of_nat p))%Q).
    { assert (absv v <= 2 * p10 (-307))%Q by lra.
      assert (p10 (-307) == p10 (Z.of_nat p + 1) * p10 (e - Z.of_nat p))%Q as T
        by (rewrite <- p10_plus; rewrite E308; now replace (Z.of_nat p + 1 + (-308 - Z.of_nat p)) with (-307) by lia).
      assert (p10 (Z.of_nat p + 1) <= p10 12)%Q by (apply p10_le; lia).
      pose proof (p10_pos (e - Z.of_nat p)). set (u := p10 (e - Z.of_nat p)) in *. set (h := p10 (Z.of_nat p + 1)) in *.
      assert (absv v <= 2 * (p10 12 * u))%Q by (rewrite T in *; nra).
      assert (p2 (-48) * (2 * p10 12) <= 1 # 4)%Q by (vm_compute; discriminate).
      pose proof (p2_pos (-48)). set (c := p2 (-48)) in *. set (j := p10 12) in *. nra. }
    pose proof (p10_pos (e - Z.of_nat p)). lra. }
  assert (Nk : (1 <= ndigits (Z.abs e) <= 3)%nat) by (apply ndigits_abs_le; lia).
  exists (ndigits (Z.abs e)). split; [exact Nk|]. split; [reflexivity|].
  destruct (places_bounds wo v _ W Nk) as [Qb Qe]. set (p' := places wo v (ndigits (Z.abs e))) in *.
  destruct (Z.eqb_spec N P) as [EN|NN].
  - (* a power of ten *)
    split; [|now right].
    assert (Ef : f = pow10_double (sgn_of v) e).
    { unfold f, exp_float. apply pow10_retry; [lia|]. rewrite EN. unfold P. rewrite <- p10_Z by lia. rewrite <- p10_plus.
      now replace (Z.of_nat p + (e - Z.of_nat p)) with e by lia. }
    unfold w in *. rewrite Ef in *. unfold float2expformstr.
    rewrite (pow10_form 19 wo (sgn_of v) e LM W ltac:(lia)).
    rewrite (places_pos wo _ v _ SG). now rewrite (exp_string_pos wo _ v _ _ _ _ SG).
  - (* away from powers of ten *)
    assert (Same : ndigits (Z.abs e) = nexp) by (destruct Lim as [|(_ & C & _)]; [auto|contradiction]).
    split; [|now left]. unfold p' in *. rewrite Same in *. clear p' Qe Qb. fold p.
    assert (Wn : num_num w <> 0).
    { unfold w. cbn [num_num]. intros E0. apply NZf. unfold val. rewrite E0. unfold frac. change (inject_Z 0) with 0%Q.
      field. pose proof (iz_pos _ (sf_den_pos f)). lra. }
    set (t := p10 (e - Z.of_nat p)) in *.
    assert (Tp : (0 < t)%Q) by apply p10_pos.
    assert (Te : (p10 e == inject_Z P * t)%Q).
    { unfold t, P. rewrite <- p10_Z by lia. rewrite <- p10_plus. now replace (Z.of_nat p + (e - Z.of_nat p)) with e by lia. }
    assert (Pu : P <= 10 ^ 11) by (apply Z.pow_le_mono_r; lia).
    assert (PuQ : (inject_Z P <= 100000000000)%Q) by (change 100000000000%Q with (inject_Z (10 ^ 11)); now apply iz_le).
    assert (N1 : (inject_Z P + 1 <= inject_Z N)%Q) by (change 1%Q with (inject_Z 1); rewrite <- inject_Z_plus; apply iz_le; lia).
    assert (N2 : (inject_Z N + 1 <= 10 * inject_Z P)%Q)
      by (change 1%Q with (inject_Z 1); change 10%Q with (inject_Z 10); rewrite <- inject_Z_plus, <- inject_Z_mult; apply iz_le; lia).
    assert (P1 : (1 <= inject_Z P)%Q) by (change 1%Q with (inject_Z 1); apply iz_le; lia).
    pose proof Aw as Aw0. apply Qabs_Qle_condition in Aw0 as [Aw1 Aw2]. rewrite C52 in Aw1, Aw2.
    set (x := inject_Z P) in *. set (n := inject_Z N) in *.
    assert (Hq : (q == n * t)%Q) by reflexivity.
    assert (Xt : (x * t <= 100000000000 * t)%Q) by (apply Qmult_le_compat_r; lra).
    assert (Nt1 : ((x + 1) * t <= n * t)%Q) by (apply Qmult_le_compat_r; lra).
    assert (Nt2 : ((n + 1) * t <= (10 * x) * t)%Q) by (apply Qmult_le_compat_r; lra).
    assert (L1 : (p10 e * (1 + (1 # 1000000000000)) <= absv w)%Q) by (rewrite Te; lra).
    assert (L2 : (absv w <= p10 (e + 1) * (1 - (1 # 2000000000000)))%Q) by (rewrite p10_succ, Te; lra).
    destruct (mantissa_spec (w_libm wo) w LM) as (Ew & A1 & A2 & mu & SM & Mn & MR); auto.
    { split.
      - eapply Qle_trans; [|eapply Qle_trans; [|exact L1]].
        + apply p10_range with (k := e). lia.
        + pose proof (p10_pos e). lra.
      - apply Qabs_Qle_condition in Dq as [Dq1 Dq2]. pose proof (p10_pos 308). lra. }
    set (e0 := l_elog (w_libm wo) (Z.abs (num_num w)) (num_den w)) in *.
    pose proof (p10_opp e0) as PO. pose proof (p10_pos e0) as PP. pose proof (p10_pos (- e0)) as PM.
    assert (Lo : (p10 e0 * (1 - p2 (-42)) <= absv w)%Q).
    { assert ((1 - p2 (-42)) * p10 e0 <= absv w * p10 (- e0) * p10 e0)%Q by (apply Qmult_le_compat_r; lra).
      setoid_replace (absv w * p10 (- e0) * p10 e0)%Q with (absv w * (p10 (- e0) * p10 e0))%Q in H by ring. rewrite PO in H. lra. }
    assert (Hi : (absv w < p10 (e0 + 1))%Q).
    { rewrite p10_succ. assert (absv w * p10 (- e0) * p10 e0 < 10 * p10 e0)%Q by (apply Qmult_lt_compat_r; lra).
      setoid_replace (absv w * p10 (- e0) * p10 e0)%Q with (absv w * (p10 (- e0) * p10 e0))%Q in H by ring. rewrite PO in H. lra. }
    pose proof (p10_pos e) as PPe. pose proof (p10_pos (e + 1)) as PPe1.
    assert (Ee : e0 = e).
    { assert (e < e0 + 1) by (apply p10_lt_inv; lra).
      destruct (Z.le_gt_cases e0 e); [lia|]. exfalso.
      assert (p10 (e + 1) <= p10 e0)%Q by (apply p10_le; lia).
      assert (C42 : (p2 (-42) == 1 # 4398046511104)%Q) by reflexivity. rewrite C42 in Lo. lra. }
    rewrite Ee in *. clear PO PP PM.
    pose proof (num_den_pos w) as Dw.
    assert (ED : exp_digits (Z.abs (num_num w)) (num_den w) = nexp).
    { assert (NL : -307 <= e -> (absv w < L10 e)%Q -> False).
      { intros He C. destruct (L10_bounds e ltac:(lia)) as [_ U]. pose proof p2m53.
        assert (p2 (-53) <= 1 # 2000000000000)%Q by (vm_compute; discriminate).
        assert (p2 (-53) * p10 e <= (1 # 2000000000000) * p10 e)%Q by (apply Qmult_le_compat_r; lra). lra. }
      destruct (classify (Z.abs (num_num w)) (num_den w) e) as [X|[(X & _ & Y)|(X & _ & Y)]]; auto; try lia; try congruence;
        exfalso; apply NL; auto; lia. }
    assert (PW : places wo w nexp = p) by (unfold p; apply places_pos; exact SG).
    unfold float2expformstr. rewrite (expform_unfold 19 wo w mu W).
    + rewrite ED. destruct (Z.eqb_spec (Z.abs (num_num w)) 0); [lia|]. fold e0. rewrite Ee. unfold expform_body. rewrite PW. fold P.
      destruct (printed_digits mu (absv w * p10 (- e)) p A1 A2 Mn MR ltac:(lia)) as [Nb' NR]. fold P in Nb', NR.
      set (N' := rhe (sf_num mu * P) (sf_den mu)) in *.
      assert (NN' : N' = N).
      { pose proof (digits_error (absv w) P p N' e eq_refl NR) as DE. fold t in DE.
        apply Qabs_Qle_condition in DE as [DE1 DE2].
        assert (C48 : (p2 (-48) == 1 # 281474976710656)%Q) by reflexivity. rewrite C48 in DE1, DE2.
        assert (AU : (absv w <= 2000000000000 * t)%Q).
        { assert (q <= 1000000000000 * t)%Q by (rewrite Hq; lra). lra. }
        assert (B1 : ((inject_Z N' - n) * t < 1 * t)%Q) by lra.
        assert (B2 : (- (1) * t < (inject_Z N' - n) * t)%Q) by lra.
        apply (proj1 (Qmult_lt_r _ _ t Tp)) in B1. apply (proj1 (Qmult_lt_r _ _ t Tp)) in B2.
        assert (inject_Z N' < inject_Z (N + 1))%Q as H1 by (rewrite inject_Z_plus; fold n; change (inject_Z 1) with 1%Q; lra).
        assert (inject_Z N < inject_Z (N' + 1))%Q as H2 by (rewrite inject_Z_plus; fold n; change (inject_Z 1) with 1%Q; lra).
        apply (proj1 (iz_lt _ _)) in H1. apply (proj1 (iz_lt _ _)) in H2. lia. }
      rewrite NN'. rewrite (exp_string_pos wo w v _ _ _ _ SG). rewrite exp_string_length by lia. fold P.
      assert (ndigits (N / P) = 1%nat) as ->.
      { apply ndigits_small. split; [apply Z.div_pos; lia|]. apply Z.div_lt_upper_bound; lia. }
      rewrite Same, Nat.max_id.
      destruct (Nat.ltb_spec (w_width wo) (sign_cols wo v + (1 + 1 + p) + b2n (w_keepE wo) + 1 + nexp)); [lia|reflexivity].
    + rewrite ED. exact Ne.
    + destruct (Z.eqb_spec (Z.abs (num_num w)) 0); [lia|]. fold e0. rewrite Ee. exact SM.
Qed.

(** ** Translation to the vocabulary of the theorems *)

Lemma num_value_sv v : (num_value v == sv v)%Q.
Proof.
  destruct v as [z|f|f o]; cbn [num_value].
  - unfold sv, frac. cbn. change (inject_Z 1) with 1%Q. field.
  - apply sfQ_val.
  - apply sfQ_val.
Qed.
Lemma num_value_abs v : (Qabs (num_value v) == absv v)%Q.
Proof. now rewrite num_value_sv, absv_Qabs. Qed.
Lemma num_value_zero v : (num_value v == 0)%Q <-> num_num v = 0.
Proof.
  rewrite num_value_sv. unfold sv. pose proof (num_den_pos v) as D. split; intros H.
  - pose proof (frac_mul (num_num v) (num_den v) D) as F. rewrite H in F.
    apply inject_Z_injective. rewrite <- F. ring.
  - rewrite H. unfold frac. change (inject_Z 0) with 0%Q. field. pose proof (iz_pos _ D). lra.
Qed.
Lemma number_plain v : number v <-> plain_valid v. Proof. destruct v; cbn; tauto. Qed.
Lemma within_mid v : within (Qpower 2 (-1022)) (Qpower 10 308) v -> range_mid v.
Proof.
  intros [H|[A B]]; [left; now apply num_value_zero|right]. rewrite num_value_abs in A, B. auto.
Qed.
Lemma within_stable v : within (Qpower 10 (-307)) (Qpower 10 308) v -> range_stable v.
Proof.
  intros [H|[A B]]; [left; now apply num_value_zero|right]. rewrite num_value_abs in A, B. auto.
Qed.
Lemma normal_range v : normal v -> range_ok v.
Proof.
  intros [H|[A B]]; [left; now apply num_value_zero|right]. rewrite num_value_abs in A, B. split; [exact A|].
  eapply Qlt_trans; [exact B|]. reflexivity.
Qed.

Lemma fort_noexp wo v : number v -> w_noexp wo = false -> forall s, float2expformstr wo v = Ok s -> float2fortstr wo v = Ok s.
Proof.
  intros Nv NE s E. unfold float2fortstr. rewrite E. cbn [bind]. rewrite NE.
  destruct v as [z|f|f o]; [reflexivity| |contradiction]. destruct Nv as [F _]. destruct f; try discriminate; reflexivity.
Qed.

Lemma expform_without_noexp wo v : float2expformstr (without_noexp wo) v = float2expformstr wo v.
Proof.
  unfold float2expformstr. generalize 20%nat as fuel. intros fuel; revert v; induction fuel as [|fuel IH]; intros v.
  - reflexivity.
  - cbn [float2expformstr_fuel w_width w_abuse w_keepE w_libm without_noexp].
    destruct (scaled_mantissa _ _ _) as [mu|]; [cbn [bind]|reflexivity].
    destruct (_ <? 2); [reflexivity|]. destruct (_ <? _)%nat; [|reflexivity].
    destruct (float_of_str _); [apply IH|reflexivity].
Qed.

(** C12 *)
Lemma width_default wo v : libm_ok (w_libm wo) -> field_width wo -> w_noexp wo = false -> number v -> normal v ->
  exists s, float2fortstr wo v = Ok s /\ length s = w_width wo.
Proof.
  intros LM W NE Nv R.
  destruct (exp_form_all wo v LM W (plain_valid_plain v (proj1 (number_plain v) Nv)) (normal_range v R))
    as (N & e & nexp & _ & _ & _ & _ & _ & E & L).
  eexists. split; [apply fort_noexp; eauto|exact L].
Qed.
Lemma width_all wo v : libm_ok (w_libm wo) -> field_width wo -> number v ->
  within (Qpower 2 (-1022)) (Qpower 10 308) v -> exists s, float2fortstr wo v = Ok s /\ length s = w_width wo.
Proof.
  intros LM W Nv R.
  destruct (fort_form wo v LM W (proj1 (number_plain v) Nv) (within_mid v R)) as (N & e & nexp & _ & _ & _ & _ & _ & L & _ & [E|(_ & s & x & E & Ls & _)]); eauto.
Qed.

(** C13 *)
Lemma exp_text_field wo v p N e nexp : (1 <= p)%nat -> 0 <= N ->
  spread (exp_text wo v p N e) (exp_string wo v p N e nexp).
Proof.
  intros Hp HN.
  assert (SR : forall s, spread s s) by (induction s; constructor; auto).
  assert (SA : forall a a' b b', spread a a' -> spread b b' -> spread (a ++ b) (a' ++ b')).
  { intros a a' b b' H1 H2. induction H1; cbn; [exact H2|constructor; auto|constructor; auto]. }
  assert (SP : forall k s s', spread s s' -> spread s (spaces k ++ s')).
  { intros k s s' H. induction k; cbn; [exact H|now constructor]. }
  unfold exp_text, exp_string. apply SA.
  { unfold bare_sign, sign_text. destruct (is_pos v); [destruct (w_abuse wo); repeat constructor|apply SR]. }
  repeat (apply SA; [apply SR|]). unfold rjust. apply SP, SR.
Qed.

Lemma sgn_of_value v : sgn_of v = true <-> (num_value v < 0)%Q.
Proof.
  rewrite num_value_sv. unfold sgn_of, is_pos, sv. pose proof (num_den_pos v) as D.
  rewrite frac_lt by auto. rewrite Qmult_0_l. change 0%Q with (inject_Z 0). rewrite iz_lt.
  destruct (Z.leb_spec 0 (num_num v)); cbn [negb]; split; intros; try discriminate; try reflexivity; lia.
Qed.

Lemma below_limit_iff v e : near_limit (absv v) e -> just_below_limit v.
Proof.
  intros (K & A & B). exists e. split; [exact K|]. rewrite !num_value_abs. split; [exact A|].
  rewrite sfQ_val. exact B.
Qed.

Lemma accuracy wo v : libm_ok (w_libm wo) -> field_width wo -> w_noexp wo = false -> number v ->
  within (Qpower 2 (-1022)) (Qpower 10 308) v ->
  exists s t neg m k (p x : nat), float2fortstr wo v = Ok s /\ spread t s /\
    fortran_text t neg m (k - Z.of_nat p) /\ (neg = true <-> (num_value v < 0)%Q) /\
    (Qabs (Qabs (num_value v) - decimalQ m (k - Z.of_nat p))
       <= (1 # 2) * Qpower 10 (k - Z.of_nat p) + Qpower 2 (-48) * Qabs (num_value v))%Q /\
    ((num_value v == 0)%Q -> m = 0) /\
    (~ (num_value v == 0)%Q -> 10 ^ Z.of_nat p <= m < 10 ^ (Z.of_nat p + 1)) /\
    (w_width wo <= p + 5 + x)%nat /\ (1 <= x <= 3)%nat /\
    (~ just_below_limit v -> x = ndigits (Z.abs k)).
Proof.
  intros LM W NE Nv R. pose proof (plain_valid_plain v (proj1 (number_plain v) Nv)) as Pl.
  destruct (exp_form_all wo v LM W Pl (range_mid_ok v (within_mid v R)))
    as (N & e & x & F & Ne & Nb & Er & L & E & Len).
  destruct (places_bounds wo v x W Ne) as [Pb Pe]. set (p := places wo v x) in *.
  exists (exp_string wo v p N e x), (exp_text wo v p N e), (sgn_of v), N, e, p, x.
  split; [now apply fort_noexp|]. split; [apply exp_text_field; lia|]. split; [apply exp_text_ok; lia|].
  split; [apply sgn_of_value|].
  split.
  { rewrite num_value_abs. destruct F as [(Z0 & -> & -> & ->)|(Nz & G)].
    - assert (absv v == 0)%Q as -> by (unfold absv; rewrite Z0; unfold frac; change (inject_Z (Z.abs 0)) with 0%Q; field; pose proof (iz_pos _ (num_den_pos v)); lra).
      unfold decimalQ. change (inject_Z 0) with 0%Q. setoid_replace (0 - 0 * Qpower 10 (0 - Z.of_nat p))%Q with 0%Q by ring.
      change (Qabs 0) with 0%Q. pose proof (p10_pos (0 - Z.of_nat p)) as T. unfold p10 in T. lra.
    - destruct G as (_ & _ & _ & DE & _). exact DE. }
  split.
  { intros Z0. apply num_value_zero in Z0. destruct F as [(_ & F & _)|(F & _)]; [exact F|contradiction]. }
  split.
  { intros Nz. rewrite num_value_zero in Nz. destruct F as [(F & _)|(_ & (_ & _ & B & _))]; [contradiction|].
    fold p in B. rewrite Z.pow_add_r by lia. lia. }
  split.
  { pose proof (sign_cols_le wo v). pose proof (keepE_le wo). lia. }
  split; [exact Ne|]. intros NL. destruct F as [(_ & -> & -> & ->)|(_ & (_ & _ & _ & _ & [S|(_ & _ & S)]))].
  - reflexivity.
  - now symmetry.
  - destruct NL. now apply (below_limit_iff v e).
Qed.

(** reading back, all options *)
Lemma num_to_sf_exact v : plain_valid v -> exact_int v -> (val (num_to_sf v) == sv v)%Q.
Proof.
  intros Pv Small. destruct v as [z|f|f o]; [| |contradiction].
  - cbn [num_to_sf]. unfold round64_signed, sv. cbn [num_num num_den]. cbn [exact_int] in Small.
    assert (X : (frac z 1 == inject_Z z)%Q) by (unfold frac; change (inject_Z 1) with 1%Q; field). rewrite X.
    destruct (Z.ltb_spec z 0).
    + destruct (round64_int true (- z) ltac:(lia)) as [_ ->]. cbn [sgnQ]. rewrite inject_Z_opp. ring.
    + destruct (round64_int false z ltac:(lia)) as [_ ->]. cbn [sgnQ]. ring.
  - reflexivity.
Qed.

Lemma reread wo v : libm_ok (w_libm wo) -> field_width wo -> number v ->
  within (Qpower 2 (-1022)) (Qpower 10 308) v ->
  exact_int v ->
  exists s f, float2fortstr wo v = Ok s /\ length s = w_width wo /\ is_finite f = true /\ valid64 f /\
    (forall ro, r_spaces ro = true -> (w_width wo <= r_width ro)%nat ->
      read_fort_float ro s = Ok (if r_preserve ro then NEndf f s else NFlt f)) /\
    (Qabs (sfQ f - num_value v) <= Qpower 10 (8 - Z.of_nat (w_width wo)) * Qabs (num_value v))%Q.
Proof.
  intros LM W Nv R Small. pose proof (proj1 (number_plain v) Nv) as Pv. pose proof (within_mid v R) as Rm.
  destruct (fort_form wo v LM W Pv Rm) as (N & e & nexp & F & Ne & Nb & Er & L & Len & E & H).
  destruct (places_bounds wo v nexp W Ne) as [Pb Pe]. set (p := places wo v nexp) in *.
  pose proof (num_to_sf_exact v Pv Small) as Ev.
  assert (EF : is_finite (exp_float v p N e) = true /\ valid64 (exp_float v p N e) /\
    (Qabs (val (exp_float v p N e) - sv v) <= Qpower 10 (8 - Z.of_nat (w_width wo)) * absv v)%Q).
  { destruct F as [(Z0 & -> & -> & ->)|(Nz & G)].
    - unfold exp_float. split; [reflexivity|]. split; [exact I|].
      change (val (round64 (sgn_of v) (dec_num 0 (0 - Z.of_nat p)) (dec_den (0 - Z.of_nat p)))) with (val (S754_zero (sgn_of v))).
      rewrite val_zero. assert (S0 : (sv v == 0)%Q) by (rewrite <- num_value_sv; now apply num_value_zero).
      rewrite absv_Qabs, S0. setoid_replace (0 - 0)%Q with 0%Q by ring. change (Qabs 0) with 0%Q. lra.
    - destruct Rm as [Rm|[R1 R2]]; [contradiction|].
      destruct (exp_float_spec wo v N e nexp W G R1 R2) as (Ff & Vf & _ & Df & _ & _). fold p in Ff, Vf, Df.
      split; [exact Ff|]. split; [exact Vf|].
      destruct (good_form_q wo v N e nexp W G) as (_ & Qp & Dq). fold p in Qp, Dq.
      destruct G as (_ & _ & B & DE & _). fold p in B, DE.
      set (t := p10 (e - Z.of_nat p)) in *. set (q := (inject_Z N * t)%Q) in *. set (g := sgnQ (sgn_of v)) in *.
      assert (Tp : (0 < t)%Q) by apply p10_pos.
      set (c := Qpower 10 (8 - Z.of_nat (w_width wo))).
      assert (UC : (t <= c * q)%Q).
      { assert (X : (1 <= c * inject_Z N)%Q).
        { apply Qle_trans with (c * p10 (Z.of_nat p))%Q.
          - unfold c. fold (p10 (8 - Z.of_nat (w_width wo))). rewrite <- p10_plus. change 1%Q with (p10 0). apply p10_le.
            pose proof (sign_cols_le wo v). pose proof (keepE_le wo). lia.
          - apply Qmult_le_l; [apply p10_pos|]. rewrite p10_Z by lia. apply iz_le. lia. }
        unfold q. setoid_replace (c * (inject_Z N * t))%Q with ((c * inject_Z N) * t)%Q by ring. nra. }
      assert (Cb : (1 # 10000000 <= c)%Q).
      { change (1 # 10000000)%Q with (p10 (-7)). apply p10_le. destruct W as [W1 W2]. lia. }
      assert (A0 : (0 <= absv v)%Q) by (apply frac_nonneg; [lia|apply num_den_pos]).
      assert (A1 : (Qabs (g * q - sv v) <= (1 # 2) * t + p2 (-48) * absv v)%Q).
      { rewrite sv_abs. fold g. setoid_replace (g * q - g * absv v)%Q with (- (g * (absv v - q)))%Q by ring.
        unfold g. rewrite Qabs_opp, sgnQ_abs. exact DE. }
      pose proof (Qabs_triangle (val (exp_float v p N e) - g * q) (g * q - sv v)) as T1.
      setoid_replace (val (exp_float v p N e) - g * q + (g * q - sv v))%Q with (val (exp_float v p N e) - sv v)%Q in T1 by ring.
      apply Qabs_Qle_condition in Dq as [Dq1 Dq2].
      assert (C52 : (p2 (-52) == 1 # 4503599627370496)%Q) by reflexivity.
      assert (C48 : (p2 (-48) == 1 # 281474976710656)%Q) by reflexivity. rewrite C52 in Df. rewrite C48 in A1.
      assert (Cp : (0 < c)%Q) by apply p10_pos.
      assert (C1 : (c * q <= c * ((106 # 100) * absv v))%Q) by (apply Qmult_le_l; [exact Cp|lra]).
      assert (C2 : ((1 # 10000000) * absv v <= c * absv v)%Q) by (apply Qmult_le_compat_r; auto).
      lra. }
  destruct EF as (Ff & Vf & Df).
  destruct H as [H|(_ & s & x & Es & Ls & Fx & Vx & Rx & Dx)].
  - exists (exp_string wo v p N e nexp), (exp_float v p N e). split; [exact H|]. split; [exact Len|]. split; [exact Ff|].
    split; [exact Vf|]. split.
    + intros ro RS RW. apply exp_string_reads; auto; lia.
    + rewrite sfQ_val, num_value_abs, num_value_sv. exact Df.
  - exists s, x. split; [exact Es|]. split; [exact Ls|]. split; [exact Fx|]. split; [exact Vx|]. split.
    + intros ro _ RW. apply Rx. lia.
    + rewrite sfQ_val, num_value_abs, num_value_sv. rewrite Ev in Dx. eapply Qle_trans; [exact Dx|exact Df].
Qed.

(** C14 *)
Lemma noexp_closer wo v : libm_ok (w_libm wo) -> field_width wo -> number v ->
  within (Qpower 2 (-1022)) (Qpower 10 308) v -> exact_int v ->
  exists s t f g, float2fortstr wo v = Ok s /\ float2fortstr (without_noexp wo) v = Ok t /\
    length s = w_width wo /\ length t = w_width wo /\
    (forall ro, r_spaces ro = true -> r_preserve ro = false -> (w_width wo <= r_width ro)%nat ->
       read_fort_float ro s = Ok (NFlt f) /\ read_fort_float ro t = Ok (NFlt g)) /\
    (Qabs (sfQ f - num_value v) <= Qabs (sfQ g - num_value v))%Q.
Proof.
  intros LM W Nv R Small. pose proof (proj1 (number_plain v) Nv) as Pv. pose proof (within_mid v R) as Rm.
  destruct (fort_form wo v LM W Pv Rm) as (N & e & nexp & F & Ne & Nb & Er & L & Len & E & H).
  destruct (places_bounds wo v nexp W Ne) as [Pb Pe]. set (p := places wo v nexp) in *.
  pose proof (num_to_sf_exact v Pv Small) as Ev.
  assert (T : float2fortstr (without_noexp wo) v = Ok (exp_string wo v p N e nexp)).
  { apply fort_noexp; [exact Nv|reflexivity|]. rewrite expform_without_noexp. exact E. }
  assert (RT : forall ro, r_spaces ro = true -> r_preserve ro = false -> (w_width wo <= r_width ro)%nat ->
    read_fort_float ro (exp_string wo v p N e nexp) = Ok (NFlt (exp_float v p N e))).
  { intros ro RS RP RW. rewrite exp_string_reads; auto; try lia. now rewrite RP. }
  destruct H as [H|(_ & s & x & Es & Ls & Fx & Vx & Rx & Dx)].
  - exists (exp_string wo v p N e nexp), (exp_string wo v p N e nexp), (exp_float v p N e), (exp_float v p N e).
    do 4 (split; [assumption|]). split; [|lra]. intros ro RS RP RW. split; now apply RT.
  - exists s, (exp_string wo v p N e nexp), x, (exp_float v p N e).
    do 4 (split; [assumption|]). split.
    + intros ro RS RP RW. split; [|now apply RT]. rewrite Rx by lia. now rewrite RP.
    + rewrite !sfQ_val, num_value_sv. rewrite Ev in Dx. exact Dx.
Qed.

Lemma exp_float_pow10 v e (p p' : nat) :
  exp_float v p (10 ^ Z.of_nat p) e = exp_float v p' (10 ^ Z.of_nat p') e.
Proof.
  unfold exp_float. apply round64_same; try (apply dec_num_nonneg; apply Z.pow_nonneg; lia); try apply dec_den_pos.
  unfold dec_num, dec_den. rewrite <- !Z.pow_add_r by lia. f_equal. lia.
Qed.

(** what is written is read and written again *)
Lemma rewrite_stable wo v : libm_ok (w_libm wo) -> field_width wo -> w_noexp wo = false -> number v ->
  within (Qpower 10 (-307)) (Qpower 10 308) v ->
  exists s s' f, float2fortstr wo v = Ok s /\ length s = w_width wo /\ is_finite f = true /\ valid64 f /\
    float2fortstr wo (NFlt f) = Ok s' /\ length s' = w_width wo /\
    (forall ro, r_spaces ro = true -> r_preserve ro = false -> (w_width wo <= r_width ro)%nat ->
       read_fort_float ro s = Ok (NFlt f) /\ read_fort_float ro s' = Ok (NFlt f)) /\
    (~ just_below_limit v -> s' = s /\
       forall ro, r_preserve ro = false -> (w_width wo <= r_width ro)%nat -> read_fort_float ro s = Ok (NFlt f)).
Proof.
  intros LM W NE Nv R. pose proof (proj1 (number_plain v) Nv) as Pv.
  pose proof (within_stable v R) as Rs. pose proof (range_stable_mid v Rs) as Rm.
  pose proof (plain_valid_plain v Pv) as Pl.
  destruct (exp_form_all wo v LM W Pl (range_mid_ok v Rm)) as (N & e & x & F & Ne & Nb & Er & L & E & Len).
  destruct (places_bounds wo v x W Ne) as [Pb Pe]. set (p := places wo v x) in *.
  set (f := exp_float v p N e).
  assert (RD : forall ro, (r_spaces ro = true \/ (x <= ndigits (Z.abs e))%nat) -> r_preserve ro = false -> (w_width wo <= r_width ro)%nat ->
    read_fort_float ro (exp_string wo v p N e x) = Ok (NFlt f)).
  { intros ro C RP RW. rewrite exp_string_reads; auto; try lia. now rewrite RP. }
  assert (FV : is_finite f = true /\ valid64 f).
  { destruct F as [(_ & -> & -> & _)|(Nz & G)]; [split; [reflexivity|exact I]|].
    destruct Rm as [Rm|[R1 R2]]; [contradiction|].
    destruct (exp_float_spec wo v N e x W G R1 R2) as (Ff & Vf & _). now split. }
  destruct FV as [Ff Vf].
  assert (S : exists s', float2expformstr wo (NFlt f) = Ok s' /\ length s' = w_width wo /\
     (forall ro, r_spaces ro = true -> r_preserve ro = false -> (w_width wo <= r_width ro)%nat -> read_fort_float ro s' = Ok (NFlt f)) /\
     (x = ndigits (Z.abs e) -> s' = exp_string wo v p N e x)).
  { destruct F as [(Z0 & N0 & e0 & x0)|(Nz & G)].
    - assert (Ef : f = S754_zero (sgn_of v)) by (unfold f; rewrite N0; reflexivity).
      assert (Sg : is_pos (NFlt f) = is_pos v) by (rewrite Ef; unfold is_pos; rewrite Z0; reflexivity).
      exists (exp_string wo v p N e x).
      assert (Eq : float2expformstr wo (NFlt f) = Ok (exp_string wo v p N e x)).
      { unfold float2expformstr. rewrite exp_form_zero; auto; [|now rewrite Ef].
        rewrite (exp_string_pos wo _ v), (places_pos wo _ v) by exact Sg. unfold p. now rewrite N0, e0, x0. }
      split; [exact Eq|]. split; [exact Len|]. split; [|auto]. intros; apply RD; auto.
    - destruct (exp_stable wo v N e x LM W Rs Nz G) as (Sg & x' & Ne' & Nd & Eq & Alt). fold p f in Sg, Eq, Alt.
      set (N' := if N =? 10 ^ Z.of_nat p then 10 ^ Z.of_nat (places wo v x') else N) in *.
      destruct (places_bounds wo v x' W Ne') as [Pb' Pe'].
      assert (N'0 : 0 <= N') by (unfold N'; destruct (N =? _); [apply Z.pow_nonneg; lia|exact Nb]).
      assert (EF : exp_float v (places wo v x') N' e = f).
      { destruct (Z.eqb_spec N (10 ^ Z.of_nat p)) as [E10|E10].
        - unfold N', f. rewrite E10. apply exp_float_pow10.
        - destruct Alt as [Alt|Alt]; [|contradiction]. rewrite Alt. reflexivity. }
      assert (Same : x = ndigits (Z.abs e) -> exp_string wo v (places wo v x') N' e x' = exp_string wo v p N e x).
      { intros Ex. assert (Hx : x' = x) by (now rewrite <- Nd, <- Ex). unfold N'. rewrite Hx. fold p.
        destruct (Z.eqb_spec N (10 ^ Z.of_nat p)) as [->|]; reflexivity. }
      exists (exp_string wo v (places wo v x') N' e x'). split; [exact Eq|].
      assert (Len' : length (exp_string wo v (places wo v x') N' e x') = w_width wo).
      { destruct Alt as [Alt|Alt].
        - rewrite Same by (now rewrite <- Alt). exact Len.
        - unfold N'. rewrite Alt, Z.eqb_refl, exp_string_length by (try lia; apply Z.pow_nonneg; lia).
          rewrite Z.div_same by (apply Z.pow_nonzero; lia). change (ndigits 1) with 1%nat. lia. }
      split; [exact Len'|]. split; [|exact Same].
      intros ro RS RP RW. rewrite exp_string_reads; auto; try lia. now rewrite RP, EF. }
  destruct S as (s' & Es' & Ls' & Rs' & Same).
  exists (exp_string wo v p N e x), s', f. split; [now apply fort_noexp|]. split; [exact Len|]. split; [exact Ff|]. split; [exact Vf|].
  split; [apply fort_noexp; [now split|exact NE|exact Es']|]. split; [exact Ls'|]. split.
  - intros ro RS RP RW. split; [apply RD; auto|now apply Rs'].
  - intros NL. assert (Ex : x = ndigits (Z.abs e)).
    { destruct F as [(_ & -> & -> & ->)|(_ & (_ & _ & _ & _ & [S|(_ & _ & S)]))]; [reflexivity|now symmetry|].
      destruct NL. now apply (below_limit_iff v e). }
    split; [now apply Same|]. intros ro RP RW. apply RD; auto. right. lia.
Qed.

(** C15 *)
Lemma preserved_field ro wo s v : r_preserve ro = true -> w_width wo = r_width ro -> length s = r_width ro ->
  ~ blank s -> read_fort_float ro s = Ok v -> float2fortstr wo v = Ok s.
Proof.
  intros P W L NB H. unfold read_fort_float, fortstr2float in H. rewrite P in H.
  rewrite firstn_all2 in H by lia. destruct (is_blank s) eqn:B; [apply blank_iff in B; contradiction|].
  destruct (float_of_str _); [|discriminate]. inversion H. cbn. rewrite W, L, Nat.eqb_refl. reflexivity.
Qed.

Lemma preserved_fields ro wo n : r_preserve ro = true -> w_width wo = r_width ro -> forall line vs,
  (n * r_width ro <= length line)%nat ->
  (forall i, (i < n)%nat -> ~ blank (slice (i * r_width ro) (i * r_width ro + r_width ro) line)) ->
  read_fort_floats ro line n = Ok vs -> write_fort_floats wo vs = Ok (firstn (n * r_width ro) line).
Proof.
  intros P W line vs L NB H. unfold read_fort_floats in H. apply mapM_Forall2 in H.
  unfold write_fort_floats. set (w := r_width ro) in *.
  assert (M : forall m a us, (a + m <= n)%nat ->
     Forall2 (fun i b => read_fort_float ro (slice (i * w) (i * w + w) line) = Ok b) (seq a m) us ->
     exists ss, mapM (float2fortstr wo) us = Ok ss /\ concat ss = slice (a * w) ((a + m) * w) line).
  { induction m as [|m IH]; intros a us Hm F; cbn [seq] in F; inversion F; subst.
    - exists []. split; [reflexivity|]. unfold slice. rewrite Nat.add_0_r, Nat.sub_diag. reflexivity.
    - destruct (IH (S a) l' ltac:(lia) H4) as (ss & E & C).
      exists (slice (a * w) (a * w + w) line :: ss). split.
      + cbn [mapM]. rewrite (preserved_field ro wo (slice (a * w) (a * w + w) line)); auto.
        * cbn [bind]. now rewrite E.
        * rewrite length_slice. fold w. nia.
        * apply NB. lia.
      + cbn [concat]. rewrite C. replace (S a + m)%nat with (a + S m)%nat by lia.
        replace (S a * w)%nat with (a * w + w)%nat by lia. symmetry. apply slice_split; nia. }
  destruct (M n 0%nat vs ltac:(lia) H) as (ss & E & C). rewrite E. cbn [bind]. rewrite C.
  unfold slice. rewrite Nat.mul_0_l, Nat.sub_0_r. reflexivity.
Qed.

(** ** Refutations and examples *)
Lemma subnormal_refuted : exists v, number v /\ libm_ok (w_libm default_wo) /\
  float2fortstr default_wo v = Err ZeroDivisionError.
Proof.
  exists smallest. split; [split; [reflexivity|right; lia]|]. split; [apply libm_ref_ok|vm_compute; reflexivity].
Qed.
Lemma a_third_number : number a_third.
Proof.
  unfold a_third. replace (round64 false 1 3) with (S754_finite false 6004799503160661 (-54)) by (vm_compute; reflexivity).
  split; [reflexivity|left; lia].
Qed.
Lemma not_finite_rejected wo f : is_finite f = false -> exists e, float2fortstr wo (NFlt f) = Err e.
Proof. destruct f; intros; try discriminate; eexists; reflexivity. Qed.

Lemma same_text_refuted : exists v s f s', number v /\ libm_ok (w_libm close_wo) /\
  float2fortstr close_wo v = Ok s /\ read_fort_float default_ro s = Ok (NFlt f) /\
  float2fortstr close_wo (NFlt f) = Ok s' /\ s' <> s /\
  forall ro, r_spaces ro = false -> r_width ro = 11%nat -> read_fort_float ro s = Err InvalidFloatError.
Proof.
  exists before_1em9, $" 1.00000- 9", (pow10_double false (-9)), $" 1.000000-9".
  split; [split; [reflexivity|left; lia]|]. split; [apply libm_close_ok|].
  split; [vm_compute; reflexivity|]. split; [vm_compute; reflexivity|]. split; [vm_compute; reflexivity|].
  split; [discriminate|]. intros ro RS RW. unfold read_fort_float. rewrite RS, RW. destruct (r_preserve ro); vm_compute; reflexivity.
Qed.

Lemma largest_refuted : exists v s, number v /\ normal v /\ float2fortstr default_wo v = Ok s /\
  read_fort_float default_ro s = Ok (NFlt (S754_infinity false)).
Proof.
  exists (NFlt (S754_finite false 9007199254740991 971)), $" 1.7977+308".
  split; [split; [reflexivity|left; lia]|].
  split; [right; split; vm_compute; [discriminate|reflexivity]|]. split; vm_compute; reflexivity.
Qed.

Lemma C13_example_proof : within (Qpower 10 (-307)) (Qpower 10 308) a_third /\ exact_int a_third /\
  ~ just_below_limit a_third /\ just_below_limit before_1em9.
Proof.
  split; [right; split; vm_compute; discriminate|]. split; [exact I|]. split.
  - intros (k & [->| ->] & _ & B); vm_compute in B; discriminate B.
  - exists (-9). split; [now left|]. split; vm_compute; [discriminate|reflexivity].
Qed.

Lemma blank_and_short_refuted :
  (exists s v t, length s = 11%nat /\ read_fort_float preserving_ro s = Ok v /\
     float2fortstr default_wo v = Ok t /\ t <> s) /\
  (exists s v, read_fort_float preserving_ro s = Ok v /\
     float2fortstr default_wo v = Err InvalidFloatError).
Proof.
  split.
  - exists $"           ", (NFlt (S754_zero false)), $" 0.000000+0". repeat split; try (vm_compute; reflexivity). discriminate.
  - exists $" 1.5", (NEndf (round64 false 3 2) $" 1.5"). split; vm_compute; reflexivity.
Qed.
