(** Reading real numbers: [float(s)], the inserted exponent letter, blanks. *)
From Coq Require Import Ascii String ZArith QArith Qabs Lqa Bool Lia List.
From Coq Require Import Floats.SpecFloat.
From Verif Require Import PyBase ProofPyBase PyFloat ProofFloat ModelFortran ModelRecords
  SpecFields ProofFields SpecFloat.
Import ListNotations.
Open Scope Z_scope.

Lemma digit_string_all s : digit_string s <-> all_digits s.
Proof. unfold digit_string, all_digits. now rewrite Forall_forall. Qed.

Definition starts_digit (s : str) : bool := match s with c :: _ => is_digit c | [] => false end.

Lemma span_digits_app ds r : all_digits ds -> starts_digit r = false -> span_digits (ds ++ r) = (ds, r).
Proof.
  intros H S. induction H as [|c ds Hc H IH]; cbn.
  - destruct r as [|c r]; [reflexivity|]. cbn in S. cbn. now rewrite S.
  - now rewrite Hc, IH.
Qed.

Lemma span_digits_inv s a b : span_digits s = (a, b) ->
  s = a ++ b /\ all_digits a /\ starts_digit b = false.
Proof.
  revert a b; induction s as [|c s IH]; intros a b H; cbn in H.
  - inversion H; subst. repeat split; constructor.
  - destruct (is_digit c) eqn:E.
    + destruct (span_digits s) as [x y]. inversion H; subst.
      destruct (IH x b eq_refl) as (-> & D & S). repeat split; auto. constructor; auto.
    + inversion H; subst. repeat split; auto. constructor.
Qed.

Lemma dval_digits s : all_digits s -> dval s = digits_value s.
Proof. intros H. unfold dval. now rewrite digits_val_acc_fold by auto. Qed.

Lemma is_digit_chr_neq c d : is_digit c = true -> is_digit d = false -> chr_eqb c d = false.
Proof. intros H1 H2. destruct (chr_eqb c d) eqn:E; auto. apply chr_eqb_eq in E. congruence. Qed.

(** parsing of an unsigned literal whose exponent letter is present *)
Lemma parse_decimal_text ip point fp ex k :
  all_digits ip -> all_digits fp -> ip ++ fp <> [] ->
  (point = [] /\ fp = [] \/ point = $".") ->
  exponent_text false ex k ->
  parse_decimal (ip ++ point ++ fp ++ ex) = Some (digits_value (ip ++ fp), k - Z.of_nat (length fp)).
Proof.
  intros Di Df N P X.
  assert (Dif : all_digits (ip ++ fp)) by (apply Forall_app; auto).
  assert (SE : starts_digit ex = false).
  { inversion X as [|c sign ds Hc _ _ _|]; subst; [reflexivity|]. cbn. destruct Hc; subst; reflexivity. }
  assert (SP : starts_digit (point ++ fp ++ ex) = false).
  { destruct P as [[-> ->]| ->]; [exact SE|reflexivity]. }
  unfold parse_decimal. rewrite span_digits_app by auto.
  assert (E2 : match point ++ fp ++ ex with
               | [] => ([], [])
               | c :: r => if chr_eqb c "."%char then span_digits r else ([], point ++ fp ++ ex)
               end = (fp, ex)).
  { destruct P as [[-> ->]| ->].
    - cbn [app]. destruct ex as [|c r]; [reflexivity|].
      assert (chr_eqb c "."%char = false) as ->; [|reflexivity].
      inversion X as [|c' sign ds Hc _ _ _|]; subst. destruct Hc; subst; reflexivity.
    - cbn [app]. cbn. now apply span_digits_app. }
  cbv beta iota zeta. unfold str in *. rewrite E2. rewrite <- dval_digits by auto.
  destruct (ip ++ fp) as [|c0 ds0] eqn:Eds; [contradiction|].
  inversion X as [|c sign ds Hc Hs Nd Dd|]; subst.
  - f_equal.
  - assert (chr_eqb (lower c) "e"%char = true) as -> by (destruct Hc; subst; reflexivity).
    apply digit_string_all in Dd.
    assert (TS : take_sign (sign ++ ds) = (str_eqb sign $"-", ds)).
    { destruct Hs as [-> | [-> | ->]]; try reflexivity. cbn [app]. rewrite take_sign_digits by auto. reflexivity. }
    rewrite TS. rewrite <- (app_nil_r ds) at 1. rewrite span_digits_app by (auto; reflexivity).
    destruct ds as [|d1 ds1] eqn:Ed; [contradiction|]. rewrite <- Ed in *. rewrite !(dval_digits ds) by auto.
    f_equal. f_equal. destruct (str_eqb sign $"-"); lia.
Qed.

Lemma parse_decimal_no_ws u v : parse_decimal u = Some v -> no_ws u.
Proof.
  unfold parse_decimal. destruct (span_digits u) as [ip r1] eqn:E1.
  apply span_digits_inv in E1 as (-> & D1 & _). apply all_digits_no_ws in D1.
  intros H. apply Forall_app. split; auto. clear D1.
  destruct r1 as [|c r]; [constructor|].
  assert (K : forall fp r2, match ip ++ fp with
      | [] => None
      | ds =>
          match r2 with
          | [] => Some (dval ds, - Z.of_nat (length fp))
          | c :: r =>
              if chr_eqb (lower c) "e"
              then let '(neg, r3) := take_sign r in
                   let '(ep, r4) := span_digits r3 in
                   match ep, r4 with
                   | _ :: _, [] => Some (dval ds, - Z.of_nat (length fp) + (if neg then - dval ep else dval ep))
                   | _, _ => None
                   end
              else None
          end
      end = Some v -> no_ws r2).
  { intros fp r2 K. destruct (ip ++ fp); [discriminate|]. destruct r2 as [|c2 r2]; [constructor|].
    destruct (chr_eqb (lower c2) "e") eqn:Ee; [|discriminate].
    constructor.
    { destruct (is_ws c2) eqn:W; auto. exfalso.
      apply chr_eqb_eq in Ee. unfold lower in Ee.
      unfold is_ws in W. 
      destruct ((65 <=? code c2)%nat && (code c2 <=? 90)%nat) eqn:R.
      - apply andb_true_iff in R as [R1 R2]. apply Nat.leb_le in R1, R2.
        repeat (apply orb_true_iff in W as [W|W]);
          try (apply andb_true_iff in W as [W1 W2]; apply Nat.leb_le in W1, W2; lia);
          apply Nat.eqb_eq in W; lia.
      - subst c2. vm_compute in W. discriminate. }
    destruct (take_sign r2) as [neg r3] eqn:T. destruct (span_digits r3) as [ep r4] eqn:S.
    destruct ep; [discriminate|]. destruct r4; [|discriminate].
    apply span_digits_inv in S as (-> & D & _). rewrite app_nil_r in T.
    apply all_digits_no_ws in D.
    apply take_sign_inv in T as [[_ ->]|[_ [->| ->]]]; auto; constructor; auto. }
  destruct (chr_eqb c ".") eqn:Ep.
  - destruct (span_digits r) as [fp r2] eqn:E2. apply span_digits_inv in E2 as (-> & D2 & _).
    apply chr_eqb_eq in Ep. subst c. constructor; [reflexivity|].
    apply Forall_app. split; [now apply all_digits_no_ws|]. exact (K fp r2 H).
  - exact (K [] (c :: r) H).
Qed.

(** ** [float(s)] of a decimal literal *)

Definition fchars (c : ascii) : bool :=
  is_digit c || chr_eqb c "."%char || chr_eqb c "+"%char || chr_eqb c "-"%char
  || chr_eqb c "E"%char || chr_eqb c "e"%char.

Lemma fchars_no_ws c : fchars c = true -> is_ws c = false.
Proof.
  unfold fchars. rewrite !orb_true_iff. rewrite !chr_eqb_eq.
  intros [[[[[H|H]|H]|H]|H]|H]; [now apply is_digit_no_ws|subst; reflexivity..].
Qed.
Lemma fchars_no_us c : fchars c = true -> chr_eqb c "_"%char = false.
Proof.
  unfold fchars. rewrite !orb_true_iff. rewrite !chr_eqb_eq.
  intros [[[[[H|H]|H]|H]|H]|H]; [now apply is_digit_chr_neq|subst; reflexivity..].
Qed.

Definition fstr (s : str) : Prop := Forall (fun c => fchars c = true) s.

Lemma fstr_app a b : fstr (a ++ b) <-> fstr a /\ fstr b.
Proof. apply Forall_app. Qed.
Lemma fstr_digits s : all_digits s -> fstr s.
Proof. intros H. eapply Forall_impl; [|exact H]. intros c Hc. unfold fchars. now rewrite Hc. Qed.
Lemma fstr_no_ws s : fstr s -> no_ws s.
Proof. intros H. eapply Forall_impl; [|exact H]. apply fchars_no_ws. Qed.
Lemma fstr_us_ok b s : fstr s -> us_ok_from b s = true.
Proof.
  intros H; revert b; induction H as [|c s Hc H IH]; intros b; cbn; auto.
  rewrite fchars_no_us by auto. apply IH.
Qed.
Lemma fstr_drop_us s : fstr s -> drop_us s = s.
Proof.
  intros H. induction H as [|c s Hc H IH]; cbn; auto. rewrite fchars_no_us by auto. cbn. now f_equal.
Qed.

Lemma exponent_fstr b ex k : exponent_text b ex k -> fstr ex.
Proof.
  intros H. inversion H as [|c sign ds Hc Hs _ Hd|sign ds Hs _ Hd]; subst.
  - constructor.
  - apply digit_string_all in Hd. constructor; [destruct Hc; subst; reflexivity|].
    apply fstr_app. split; [|now apply fstr_digits].
    destruct Hs as [-> | [-> | ->]]; repeat constructor.
  - apply digit_string_all in Hd. apply fstr_app. split; [|now apply fstr_digits].
    destruct Hs as [-> | ->]; repeat constructor.
Qed.

Lemma float_of_str_text w1 w2 sign neg ip point fp ex k :
  all_ws w1 -> all_ws w2 ->
  (sign = [] /\ neg = false \/ sign = $"+" /\ neg = false \/ sign = $"-" /\ neg = true) ->
  all_digits ip -> all_digits fp -> ip ++ fp <> [] ->
  (point = [] /\ fp = [] \/ point = $".") ->
  exponent_text false ex k ->
  let m := digits_value (ip ++ fp) in let e := k - Z.of_nat (length fp) in
  float_of_str (w1 ++ (sign ++ ip ++ point ++ fp ++ ex) ++ w2) =
  Some (round64 neg (dec_num m e) (dec_den e)).
Proof.
  intros W1 W2 HS Di Df N P X m e.
  set (u := ip ++ point ++ fp ++ ex).
  assert (Fu : fstr u).
  { unfold u. rewrite !fstr_app. repeat split; auto using fstr_digits.
    - destruct P as [[-> _]| ->]; repeat constructor.
    - now apply exponent_fstr in X. }
  assert (Ft : fstr (sign ++ u)).
  { apply fstr_app. split; auto. destruct HS as [[-> _]|[[-> _]|[-> _]]]; repeat constructor. }
  unfold float_of_str. rewrite strip_padded by (auto using fstr_no_ws).
  unfold us_ok. rewrite fstr_us_ok by auto. cbn [negb]. rewrite fstr_drop_us by auto.
  assert (U0 : exists c r, u = c :: r /\ (is_digit c = true \/ c = "."%char)).
  { unfold u. destruct ip as [|c ip].
    - destruct P as [[-> ->]| ->]; [contradiction|]. cbn. eauto.
    - exists c. cbn. eexists. split; [reflexivity|]. left. now inversion Di. }
  destruct U0 as (c & r & Eu & Hc).
  assert (TS : take_sign (sign ++ u) = (neg, u)).
  { destruct HS as [[-> ->]|[[-> ->]|[-> ->]]]; try reflexivity. cbn [app]. rewrite Eu. unfold take_sign.
    destruct Hc as [Hc| ->]; [|reflexivity].
    rewrite (is_digit_not c "-"%char), (is_digit_not c "+"%char); auto; vm_compute; lia. }
  rewrite TS.
  assert (LC : forall d, (d = "i"%char \/ d = "n"%char) -> chr_eqb (lower c) d = false).
  { intros d Hd. destruct Hc as [Hc| ->]; [|destruct Hd; subst; reflexivity].
    assert (lower c = c) as ->.
    { unfold lower. apply is_digit_code in Hc.
      destruct ((65 <=? code c)%nat && (code c <=? 90)%nat) eqn:E; auto.
      apply andb_true_iff in E as [E _]. apply Nat.leb_le in E. lia. }
    apply is_digit_chr_neq; auto. destruct Hd; subst; reflexivity. }
  assert (I1 : str_eqb (map lower u) $"inf" = false) by (rewrite Eu; cbn; now rewrite LC by auto).
  assert (I2 : str_eqb (map lower u) $"infinity" = false) by (rewrite Eu; cbn; now rewrite LC by auto).
  assert (I3 : str_eqb (map lower u) $"nan" = false) by (rewrite Eu; cbn; now rewrite LC by auto).
  rewrite I1, I2, I3. cbn [orb]. unfold u. rewrite (parse_decimal_text ip point fp ex k) by auto.
  reflexivity.
Qed.

(** ** The inserted exponent letter *)

Definition is_sign (c : ascii) : bool := chr_eqb c "+"%char || chr_eqb c "-"%char.

(** no sign directly after a digit; [prev]: the character before is a digit *)
Fixpoint nsad (prev : bool) (s : str) : bool :=
  match s with
  | [] => true
  | c :: r => negb (is_sign c && prev) && nsad (is_digit c) r
  end.

Definition last_digit (s : str) : bool := match rev s with c :: _ => is_digit c | [] => false end.

Lemma last_digit_snoc s c : last_digit (s ++ [c]) = is_digit c.
Proof. unfold last_digit. now rewrite rev_app_distr. Qed.

Lemma nth_error_last (s : str) c t : nth_error ((s ++ [c]) ++ t) (length (s ++ [c]) - 1) = Some c.
Proof.
  rewrite app_length, <- app_assoc. cbn. rewrite nth_error_app2 by lia.
  now replace (length s + 1 - 1 - length s)%nat with 0%nat by lia.
Qed.

Lemma insert_E_loop_id rest : forall pre, nsad (last_digit pre) rest = true ->
  insert_E_loop rest (length pre) (pre ++ rest) = pre ++ rest.
Proof.
  induction rest as [|c rest IH]; intros pre H; [reflexivity|].
  cbn [nsad] in H. apply andb_true_iff in H as [H1 H2].
  cbn [insert_E_loop]. fold (is_sign c).
  assert (E : (if (0 <? length pre)%nat && is_sign c then
      match nth_error (pre ++ c :: rest) (length pre - 1) with
      | Some d => if is_digit d then firstn (length pre) (pre ++ c :: rest) ++ "E"%char :: skipn (length pre) (pre ++ c :: rest) else pre ++ c :: rest
      | None => pre ++ c :: rest end else pre ++ c :: rest) = pre ++ c :: rest).
  { destruct (is_sign c) eqn:S; [|now rewrite andb_false_r].
    cbn [andb] in H1. destruct pre as [|x pre] using rev_ind; [reflexivity|]. clear IHpre.
    rewrite last_digit_snoc in H1.
    replace (0 <? length (pre ++ [x]))%nat with true by (symmetry; apply Nat.ltb_lt; rewrite app_length; cbn; lia).
    cbn [andb]. rewrite nth_error_last. now destruct (is_digit x). }
  rewrite E. replace (pre ++ c :: rest) with ((pre ++ [c]) ++ rest) by now rewrite <- app_assoc.
  replace (S (length pre)) with (length (pre ++ [c])) by (rewrite app_length; cbn; lia).
  apply IH. now rewrite last_digit_snoc.
Qed.

Lemma insert_E_id s : nsad false s = true -> insert_E s = s.
Proof. intros H. apply (insert_E_loop_id s [] H). Qed.

(** signs behind the insertion point do not exist any more *)
Lemma insert_E_loop_nosign rest : forall i cur, forallb (fun c => negb (is_sign c)) rest = true ->
  insert_E_loop rest i cur = cur.
Proof.
  induction rest as [|c rest IH]; intros i cur H; [reflexivity|].
  cbn in H. apply andb_true_iff in H as [H1 H2]. cbn [insert_E_loop]. fold (is_sign c).
  apply negb_true_iff in H1. rewrite H1, andb_false_r. now apply IH.
Qed.

Lemma insert_E_loop_one pre a c rest :
  nsad (last_digit pre) a = true -> last_digit (pre ++ a) = true -> is_sign c = true ->
  forallb (fun c => negb (is_sign c)) rest = true ->
  insert_E_loop (a ++ c :: rest) (length pre) (pre ++ a ++ c :: rest) =
  pre ++ a ++ "E"%char :: c :: rest.
Proof.
  revert pre. induction a as [|x a IH]; intros pre N L Sc R.
  - cbn [app] in *. cbn [insert_E_loop]. fold (is_sign c). rewrite Sc. rewrite app_nil_r in L.
    destruct pre as [|x pre] using rev_ind; [discriminate|]. clear IHpre.
    rewrite last_digit_snoc in L.
    replace (0 <? length (pre ++ [x]))%nat with true by (symmetry; apply Nat.ltb_lt; rewrite app_length; cbn; lia).
    cbn [andb]. rewrite nth_error_last, L. rewrite insert_E_loop_nosign by auto.
    rewrite firstn_app, firstn_all, Nat.sub_diag, skipn_app, skipn_all, Nat.sub_diag. cbn.
    now rewrite app_nil_r.
  - cbn [app insert_E_loop]. fold (is_sign x).
    cbn [nsad] in N. apply andb_true_iff in N as [N1 N2].
    set (cur := pre ++ x :: a ++ c :: rest).
    assert (E : (if (0 <? length pre)%nat && is_sign x then
      match nth_error cur (length pre - 1) with
      | Some d => if is_digit d then firstn (length pre) cur ++ "E"%char :: skipn (length pre) cur else cur
      | None => cur end else cur) = cur).
    { destruct (is_sign x) eqn:Sx; [|now rewrite andb_false_r].
      cbn [andb] in N1. destruct pre as [|y pre] using rev_ind; [reflexivity|]. clear IHpre.
      rewrite last_digit_snoc in N1.
      replace (0 <? length (pre ++ [y]))%nat with true by (symmetry; apply Nat.ltb_lt; rewrite app_length; cbn; lia).
      cbn [andb]. unfold cur. rewrite nth_error_last. now destruct (is_digit y). }
    rewrite E. unfold cur.
    replace (pre ++ x :: a ++ c :: rest) with ((pre ++ [x]) ++ a ++ c :: rest) by now rewrite <- app_assoc.
    replace (S (length pre)) with (length (pre ++ [x])) by (rewrite app_length; cbn; lia).
    rewrite IH; auto.
    + now rewrite <- app_assoc.
    + now rewrite last_digit_snoc.
    + now rewrite <- app_assoc.
Qed.

Lemma nsad_app b s t : nsad b (s ++ t) = nsad b s && nsad (match s with [] => b | _ => last_digit s end) t.
Proof.
  revert b; induction s as [|c s IH]; intros b; [reflexivity|].
  cbn [list_ascii_of_string app nsad]. rewrite IH, andb_assoc. f_equal. f_equal.
  destruct s as [|d s]; [reflexivity|].
  unfold last_digit. cbn [rev]. destruct (rev s ++ [d]) eqn:E; [destruct (rev s); discriminate|].
  cbn. reflexivity.
Qed.

Lemma is_sign_digit c : is_digit c = true -> is_sign c = false.
Proof. intros H. unfold is_sign. rewrite !is_digit_chr_neq by auto. reflexivity. Qed.

Lemma nsad_digits b s : all_digits s -> nsad b s = true.
Proof.
  intros H; revert b; induction H as [|c s Hc H IH]; intros b; cbn; auto.
  rewrite is_sign_digit by auto. apply IH.
Qed.
Lemma nosign_digits s : all_digits s -> forallb (fun c => negb (is_sign c)) s = true.
Proof. intros H. induction H as [|c s Hc H IH]; cbn; auto. now rewrite is_sign_digit by auto. Qed.

Lemma last_digit_app_digits a ds : all_digits ds -> ds <> [] -> last_digit (a ++ ds) = true.
Proof.
  intros H N. destruct ds as [|x ds] using rev_ind; [contradiction|]. rewrite app_assoc, last_digit_snoc.
  apply Forall_app in H as [_ H]. now inversion H.
Qed.

Lemma ws_not_sign c : is_ws c = true -> is_sign c = false /\ is_digit c = false.
Proof.
  intros H. split.
  - unfold is_sign. destruct (chr_eqb c "+"%char) eqn:E1.
    + apply chr_eqb_eq in E1. subst. discriminate.
    + destruct (chr_eqb c "-"%char) eqn:E2; auto. apply chr_eqb_eq in E2. subst. discriminate.
  - destruct (is_digit c) eqn:D; auto. apply is_digit_no_ws in D. congruence.
Qed.

Lemma nsad_ws b s : all_ws s -> nsad b s = true.
Proof.
  intros H; revert b; induction H as [|c s Hc H IH]; intros b; cbn; auto.
  destruct (ws_not_sign c Hc) as [-> _]. apply IH.
Qed.
Lemma last_digit_ws s : all_ws s -> last_digit s = false.
Proof.
  intros H. destruct s as [|x s] using rev_ind; [reflexivity|]. rewrite last_digit_snoc.
  apply Forall_app in H as [_ H]. inversion H; subst. now apply ws_not_sign.
Qed.
Lemma nosign_ws s : all_ws s -> forallb (fun c => negb (is_sign c)) s = true.
Proof. intros H. induction H as [|c s Hc H IH]; cbn; auto. destruct (ws_not_sign c Hc) as [-> _]. auto. Qed.

Definition opt_sign (sign : str) : Prop := sign = [] \/ sign = $"+" \/ sign = $"-".

(** the mantissa part: blanks, sign, digits, point, digits *)
Lemma nsad_mantissa w1 sign ip point fp :
  all_ws w1 -> opt_sign sign -> all_digits ip -> all_digits fp -> point = [] \/ point = $"." ->
  nsad false (w1 ++ sign ++ ip ++ point ++ fp) = true.
Proof.
  intros W S Di Df P. rewrite nsad_app, nsad_ws by auto. cbn [andb].
  assert (match w1 with [] => false | _ => last_digit w1 end = false) as ->.
  { destruct w1; auto. now apply last_digit_ws. }
  assert (M : forall b, nsad b (ip ++ point ++ fp) = true).
  { intros b. rewrite nsad_app, nsad_digits by auto. cbn [andb].
    destruct P as [-> | ->]; cbn [list_ascii_of_string app nsad]; [now apply nsad_digits|].
    change (is_sign ".") with false. cbn [andb negb]. now apply nsad_digits. }
  destruct S as [-> | [-> | ->]]; cbn [list_ascii_of_string app nsad]; auto; cbn [andb negb]; rewrite andb_false_r; apply M.
Qed.

(** ** Reading a Fortran number *)

Lemma fortran_read w1 w2 t neg m e : all_ws w1 -> all_ws w2 -> fortran_text t neg m e ->
  float_of_str (insert_E (w1 ++ t ++ w2)) = Some (round64 neg (dec_num m e) (dec_den e)).
Proof.
  intros W1 W2 (sign & ip & point & fp & bare & ex & k & -> & HS & Di & Df & N & P & X & -> & ->).
  apply digit_string_all in Di, Df.
  assert (OS : opt_sign sign) by (unfold opt_sign; destruct HS as [[-> _]|[[-> _]|[-> _]]]; auto).
  assert (PP : point = [] \/ point = $".") by (destruct P as [[-> _]|[-> _]]; auto).
  assert (P' : point = [] /\ fp = [] \/ point = $".") by (destruct P as [P|[P _]]; auto).
  pose proof (nsad_mantissa w1 sign ip point fp W1 OS Di Df PP) as NM.
  inversion X as [|c sg ds Hc Hs Nd Dd|sg ds Hs Nd Dd]; subst.
  - rewrite insert_E_id.
    + now apply float_of_str_text.
    + rewrite app_nil_r.
      replace (w1 ++ (sign ++ ip ++ point ++ fp) ++ w2) with ((w1 ++ sign ++ ip ++ point ++ fp) ++ w2) by now rewrite <- !app_assoc.
      rewrite nsad_app, NM. cbn [andb]. now apply nsad_ws.
  - apply digit_string_all in Dd. rewrite insert_E_id.
    + now apply float_of_str_text.
    + replace (w1 ++ (sign ++ ip ++ point ++ fp ++ c :: sg ++ ds) ++ w2)
        with ((w1 ++ sign ++ ip ++ point ++ fp) ++ (c :: sg ++ ds ++ w2))
        by (rewrite <- !app_assoc; cbn; now rewrite <- !app_assoc).
      rewrite nsad_app, NM. cbn [list_ascii_of_string andb nsad].
      assert (is_sign c = false /\ is_digit c = false) as [-> ->] by (destruct Hc; subst; split; reflexivity).
      cbn [andb negb].
      assert (Y : forall b, nsad b (ds ++ w2) = true).
      { intros b. rewrite nsad_app, nsad_digits by auto. now apply nsad_ws. }
      destruct Hs as [-> | [-> | ->]]; cbn [list_ascii_of_string app nsad]; auto; rewrite andb_false_r; apply Y.
  - apply digit_string_all in Dd.
    assert (LD : last_digit (w1 ++ sign ++ ip ++ point ++ fp) = true).
    { destruct P as [[-> ->]|[-> Hf]].
      - rewrite app_nil_r in N. cbn [app]. rewrite app_nil_r, app_assoc. now apply last_digit_app_digits.
      - rewrite !app_assoc. apply last_digit_app_digits; auto. }
    assert (exists c, sg = [c] /\ is_sign c = true /\ str_eqb sg $"-" = chr_eqb c "-"%char) as (c & -> & Sc & Sm).
    { destruct Hs as [-> | ->]; [exists "+"%char|exists "-"%char]; repeat split; reflexivity. }
    replace (w1 ++ (sign ++ ip ++ point ++ fp ++ [c] ++ ds) ++ w2)
      with ((w1 ++ sign ++ ip ++ point ++ fp) ++ c :: (ds ++ w2))
      by (rewrite <- !app_assoc; reflexivity).
    pose proof (insert_E_loop_one [] (w1 ++ sign ++ ip ++ point ++ fp) c (ds ++ w2) NM LD Sc) as IE.
    cbn [app] in IE. unfold insert_E. change (length (@nil ascii)) with 0%nat in IE. rewrite IE.
    + replace ((w1 ++ sign ++ ip ++ point ++ fp) ++ "E"%char :: c :: ds ++ w2)
        with (w1 ++ (sign ++ ip ++ point ++ fp ++ ("E"%char :: [c] ++ ds)) ++ w2)
        by (rewrite <- !app_assoc; reflexivity).
      apply float_of_str_text; auto.
      apply (exp_letter "E"%char [c] ds);
        [auto|destruct Hs as [E|E]; rewrite E; auto|auto|now apply digit_string_all].
    + rewrite forallb_app, nosign_digits, nosign_ws by auto. reflexivity.
Qed.

(** ** Blanks *)

Lemma remove_space_fstr s : fstr s -> remove_chr " "%char s = s.
Proof.
  intros H. induction H as [|c s Hc H IH]; [reflexivity|]. unfold remove_chr in *. cbn.
  assert (chr_eqb c " "%char = false) as ->.
  { destruct (chr_eqb c " "%char) eqn:E; auto. apply chr_eqb_eq in E. subst. discriminate. }
  cbn. now f_equal.
Qed.

Lemma fortran_text_fstr t neg m e : fortran_text t neg m e -> fstr t /\ t <> [].
Proof.
  intros (sign & ip & point & fp & bare & ex & k & -> & HS & Di & Df & N & P & X & _ & _).
  apply digit_string_all in Di, Df. split.
  - rewrite !fstr_app. repeat split; auto using fstr_digits.
    + destruct HS as [[-> _]|[[-> _]|[-> _]]]; repeat constructor.
    + destruct P as [[-> _]|[-> _]]; repeat constructor.
    + now apply exponent_fstr in X.
  - intros E. apply app_eq_nil in E as [_ E]. apply app_eq_nil in E as [E1 E].
    apply app_eq_nil in E as [_ E]. apply app_eq_nil in E as [E2 _]. subst. now apply N.
Qed.

Lemma dec_frac m e : (frac (dec_num m e) (dec_den e) == decimalQ m e)%Q.
Proof.
  assert (P : 0 < dec_den e) by (apply Z.pow_pos_nonneg; lia).
  symmetry. apply frac_unique; auto. unfold decimalQ, dec_num, dec_den.
  fold (p10 e). rewrite inject_Z_mult, <- !p10_Z by lia.
  rewrite <- Qmult_assoc, <- p10_plus. now replace (e + Z.max 0 (- e)) with (Z.max 0 e) by lia.
Qed.

Lemma digits_value_nonneg_acc s acc : 0 <= acc -> all_digits s -> 0 <= fold_left (fun a c => 10 * a + digit_val c) s acc.
Proof.
  intros Ha H; revert acc Ha; induction H as [|c s Hc H IH]; intros acc Ha; [exact Ha|].
  cbn [fold_left]. apply IH. apply is_digit_range in Hc. lia.
Qed.

Lemma fortran_text_nonneg t neg m e : fortran_text t neg m e -> 0 <= m.
Proof.
  intros (sign & ip & point & fp & bare & ex & k & -> & HS & Di & Df & N & P & X & -> & _).
  apply digit_string_all in Di, Df. apply digits_value_nonneg_acc; [lia|]. apply Forall_app; auto.
Qed.

Lemma round64_decimal neg m e : 0 <= m ->
  let f := round64 neg (dec_num m e) (dec_den e) in
  ((decimalQ m e < overflow_threshold)%Q ->
     nearest_double f ((if neg then -1 else 1) * decimalQ m e)%Q /\ sf_sign f = neg) /\
  ((overflow_threshold <= decimalQ m e)%Q -> f = S754_infinity neg).
Proof.
  intros Hm f. assert (P : 0 < dec_den e) by (apply Z.pow_pos_nonneg; lia).
  assert (Hn : 0 <= dec_num m e).
  { unfold dec_num. assert (0 < 10 ^ Z.max 0 e) by (apply Z.pow_pos_nonneg; lia). nia. }
  pose proof (dec_frac m e) as DF. change overflow_threshold with ovf. split; intros H.
  - assert (H' : (frac (dec_num m e) (dec_den e) < ovf)%Q) by (rewrite DF; exact H).
    destruct (round64_spec neg _ _ Hn P H') as (F & V & S & _). split; auto.
    split; auto. split; auto. intros g Fg Vg.
    pose proof (round64_nearest neg _ _ Hn P H' g Fg Vg) as X.
    fold f in X. rewrite DF in X. rewrite !sfQ_val. destruct neg; exact X.
  - apply round64_ovf; auto. rewrite DF. exact H.
Qed.

(** leading and trailing blanks, and with [accept_spaces] all spaces *)
Lemma read_fortran ro s t neg m e :
  (length s <= r_width ro)%nat -> fortran_text t neg m e ->
  (if r_spaces ro then exists w1 w2, all_ws w1 /\ all_ws w2 /\ remove_chr " "%char s = w1 ++ t ++ w2
   else exists w1 w2, all_ws w1 /\ all_ws w2 /\ s = w1 ++ t ++ w2) ->
  let f := round64 neg (dec_num m e) (dec_den e) in
  read_fort_float ro s = Ok (if r_preserve ro then NEndf f s else NFlt f).
Proof.
  intros L T H f. unfold read_fort_float, fortstr2float. rewrite firstn_all2 by auto.
  pose proof (fortran_text_fstr t neg m e T) as [Ft Nt].
  assert (NB : is_blank s = false).
  { apply is_blank_false_iff. destruct t as [|c t]; [contradiction|]. exists c.
    inversion Ft; subst. split; [|now apply fchars_no_ws].
    destruct (r_spaces ro).
    - destruct H as (w1 & w2 & _ & _ & E).
      assert (In c (remove_chr " "%char s)) as I by (rewrite E; apply in_or_app; right; now left).
      unfold remove_chr in I. now apply filter_In in I.
    - destruct H as (w1 & w2 & _ & _ & ->). apply in_or_app; right; now left. }
  rewrite NB.
  destruct (r_spaces ro); destruct H as (w1 & w2 & W1 & W2 & ->);
    rewrite (fortran_read w1 w2 t neg m e) by auto; reflexivity.
Qed.

(** inner blanks are an error without [accept_spaces] *)
Lemma float_of_str_no_inner_ws s f : float_of_str s = Some f -> no_ws (strip s).
Proof.
  unfold float_of_str. destruct (us_ok (strip s)) eqn:U; [|discriminate]. cbn [negb].
  destruct (take_sign (drop_us (strip s))) as [neg u] eqn:T.
  assert (K : no_ws u -> no_ws (strip s)).
  { intros K. apply Forall_forall. intros c Hc.
    destruct (chr_eqb c "_"%char) eqn:E; [apply chr_eqb_eq in E; subst; reflexivity|].
    assert (In c (drop_us (strip s))) as I by (apply filter_In; split; auto; now rewrite E).
    unfold no_ws in K. rewrite Forall_forall in K.
    apply take_sign_inv in T as [[_ T]|[_ [T|T]]]; rewrite T in I;
      try (destruct I as [<-|I]; [reflexivity|]); auto. }
  assert (L : forall a b, In b a -> In (lower b) (map lower a)) by (intros; now apply in_map).
  assert (LW : forall c, is_ws c = true -> lower c = c).
  { intros c W. unfold lower. destruct ((65 <=? code c)%nat && (code c <=? 90)%nat) eqn:R; auto.
    exfalso. apply andb_true_iff in R as [R1 R2]. apply Nat.leb_le in R1, R2. unfold is_ws in W.
    repeat (apply orb_true_iff in W as [W|W]);
      try (apply andb_true_iff in W as [W1 W2]; apply Nat.leb_le in W1, W2; lia);
      apply Nat.eqb_eq in W; lia. }
  assert (M : forall lit, forallb (fun c => negb (is_ws c)) lit = true -> map lower u = lit -> no_ws u).
  { intros lit FL E. apply Forall_forall. intros c Hc. destruct (is_ws c) eqn:W; auto.
    pose proof (L u c Hc) as I. rewrite LW, E in I by auto. rewrite forallb_forall in FL.
    apply FL in I. rewrite W in I. discriminate. }
  destruct (str_eqb (map lower u) $"inf") eqn:E1.
  { intros _. apply K. apply str_eqb_eq in E1. eapply M; [|exact E1]. reflexivity. }
  destruct (str_eqb (map lower u) $"infinity") eqn:E2.
  { intros _. apply K. apply str_eqb_eq in E2. eapply M; [|exact E2]. reflexivity. }
  cbn [orb]. destruct (str_eqb (map lower u) $"nan") eqn:E3.
  { intros _. apply K. apply str_eqb_eq in E3. eapply M; [|exact E3]. reflexivity. }
  destruct (parse_decimal u) as [[m e]|] eqn:P; [|discriminate].
  intros _. apply K. eapply parse_decimal_no_ws; eauto.
Qed.

(** ** Spaces *)

Lemma spread_remove t s : spread t s -> remove_chr " "%char s = remove_chr " "%char t.
Proof. unfold remove_chr. induction 1 as [|t s H IH|c t s H IH]; cbn; auto. rewrite IH. reflexivity. Qed.

Lemma spread_length t s : spread t s -> (length t <= length s)%nat.
Proof. induction 1; cbn; lia. Qed.

Lemma is_ws_space c : chr_eqb c " "%char = true -> is_ws c = true.
Proof. intros H. apply chr_eqb_eq in H. now subst. Qed.

Lemma is_blank_remove s : is_blank (remove_chr " "%char s) = is_blank s.
Proof.
  destruct (is_blank s) eqn:B.
  - apply is_blank_iff in B. apply is_blank_iff. unfold all_ws in *. rewrite Forall_forall in *.
    intros c I. apply filter_In in I as [I _]. auto.
  - apply is_blank_false_iff in B as (c & I & W). apply is_blank_false_iff. exists c. split; auto.
    apply filter_In. split; auto. destruct (chr_eqb c " "%char) eqn:E; auto.
    apply is_ws_space in E. congruence.
Qed.

Lemma read_spaces_ignored ro s s' :
  (length s <= r_width ro)%nat -> (length s' <= r_width ro)%nat ->
  r_spaces ro = true -> r_preserve ro = false ->
  remove_chr " "%char s = remove_chr " "%char s' -> read_fort_float ro s = read_fort_float ro s'.
Proof.
  intros L L' RS RP E. unfold read_fort_float, fortstr2float. rewrite !firstn_all2 by auto.
  rewrite <- (is_blank_remove s), <- (is_blank_remove s'), E, RS, RP. reflexivity.
Qed.

Lemma read_field_text ro s t neg m e :
  (length s <= r_width ro)%nat -> fortran_text t neg m e -> field_text (r_spaces ro) t s ->
  exists f, read_fort_float ro s = Ok (if r_preserve ro then NEndf f s else NFlt f) /\
   ((decimalQ m e < overflow_threshold)%Q ->
     nearest_double f ((if neg then -1 else 1) * decimalQ m e)%Q /\ sf_sign f = neg) /\
   ((overflow_threshold <= decimalQ m e)%Q -> f = S754_infinity neg).
Proof.
  intros L T F. exists (round64 neg (dec_num m e) (dec_den e)). split.
  - apply (read_fortran ro s t); auto. unfold field_text in F. destruct (r_spaces ro).
    + exists [], []. rewrite app_nil_r. split; [constructor|]. split; [constructor|]. cbn [app].
      rewrite (spread_remove t s) by auto. apply remove_space_fstr. now apply fortran_text_fstr in T.
    + destruct F as (w1 & w2 & -> & B1 & B2). exists w1, w2.
      split; [|split; [|reflexivity]]; apply Forall_forall; auto.
  - apply round64_decimal. now apply fortran_text_nonneg in T.
Qed.

Lemma read_blank_field ro s : (length s <= r_width ro)%nat -> blank s ->
  read_fort_float ro s = Ok (NFlt (S754_zero false)).
Proof.
  intros L B. unfold read_fort_float, fortstr2float. rewrite firstn_all2 by auto.
  apply blank_iff in B. now rewrite B.
Qed.

(** [insert_E] keeps inner blanks *)
Lemma insert_step_inner s i x : inner_blank s -> inner_blank (firstn i s ++ x :: skipn i s).
Proof.
  intros (a & c & w & d & b & -> & Hc & Hd & y & Iy & Wy).
  destruct (Nat.le_gt_cases i (length a)) as [L|L].
  { rewrite firstn_app, skipn_app. replace (i - length a)%nat with 0%nat by lia. cbn [firstn skipn].
    rewrite app_nil_r. exists (firstn i a ++ x :: skipn i a), c, w, d, b.
    rewrite <- app_assoc. split; [reflexivity|]. eauto. }
  rewrite firstn_app, skipn_app, firstn_all2, skipn_all2 by lia.
  destruct (i - length a)%nat as [|k] eqn:K; [lia|]. cbn [firstn skipn].
  rewrite <- app_assoc. cbn [app].
  destruct (Nat.le_gt_cases k (length w)) as [Lk|Lk].
  - rewrite firstn_app, skipn_app. replace (k - length w)%nat with 0%nat by lia. cbn [firstn skipn].
    rewrite app_nil_r. exists a, c, (firstn k w ++ x :: skipn k w), d, b.
    rewrite <- app_assoc. split; [reflexivity|]. repeat split; auto. exists y. split; auto.
    rewrite <- (firstn_skipn k w) in Iy. apply in_app_or in Iy. apply in_or_app.
    destruct Iy; [now left|right; now right].
  - rewrite firstn_app, skipn_app, firstn_all2, skipn_all2 by lia.
    destruct (k - length w)%nat as [|j] eqn:J; [lia|]. cbn [firstn skipn].
    exists a, c, w, d, (firstn j b ++ x :: skipn j b). rewrite <- app_assoc. split; [reflexivity|]. eauto.
Qed.

Lemma insert_E_loop_inner rest : forall i cur, inner_blank cur -> inner_blank (insert_E_loop rest i cur).
Proof.
  induction rest as [|c rest IH]; intros i cur H; [exact H|]. cbn [insert_E_loop]. apply IH.
  destruct ((0 <? i)%nat && _); [|exact H]. destruct (nth_error cur (i - 1)); [|exact H].
  destruct (is_digit a); [|exact H]. now apply insert_step_inner.
Qed.

Lemma inner_blank_strip s : inner_blank s -> ~ no_ws (strip s).
Proof.
  intros (a & c & w & d & b & -> & Hc & Hd & y & Iy & Wy) N.
  destruct (strip_decomp (a ++ c :: w ++ d :: b)) as (w1 & w2 & A1 & A2 & E).
  (* the stripped part contains everything from c to d *)
  assert (P : exists p q, strip (a ++ c :: w ++ d :: b) = p ++ (c :: w ++ [d]) ++ q).
  { assert (L1 : (length w1 <= length a)%nat).
    { destruct (Nat.le_gt_cases (length w1) (length a)) as [L|L]; auto. exfalso.
      assert (X : nth_error (a ++ c :: w ++ d :: b) (length a) = Some c).
      { rewrite nth_error_app2, Nat.sub_diag by lia. reflexivity. }
      rewrite E, nth_error_app1 in X by lia. apply nth_error_In in X.
      unfold all_ws in A1. rewrite Forall_forall in A1. rewrite A1 in Hc by auto. discriminate. }
    assert (LE : length (a ++ c :: w ++ d :: b) = (length w1 + (length (strip (a ++ c :: w ++ d :: b)) + length w2))%nat).
    { rewrite E at 1. rewrite !app_length. reflexivity. }
    assert (L2 : (length w2 <= length b)%nat).
    { destruct (Nat.le_gt_cases (length w2) (length b)) as [L|L]; auto. exfalso.
      assert (X : nth_error (a ++ c :: w ++ d :: b) (length a + S (length w)) = Some d).
      { rewrite nth_error_app2 by lia. replace (_ + _ - _)%nat with (S (length w)) by lia. cbn [nth_error].
        rewrite nth_error_app2, Nat.sub_diag by lia. reflexivity. }
      rewrite E, app_assoc in X. rewrite app_length in LE. cbn [length] in LE. rewrite app_length in LE. cbn [length] in LE.
      rewrite nth_error_app2 in X by (rewrite app_length; lia). apply nth_error_In in X.
      unfold all_ws in A2. rewrite Forall_forall in A2. rewrite A2 in Hd by auto. discriminate. }
    set (t := strip (a ++ c :: w ++ d :: b)) in *.
    exists (skipn (length w1) a), (firstn (length b - length w2) b).
    assert (T : t = firstn (length t) (skipn (length w1) (a ++ c :: w ++ d :: b))).
    { rewrite E. rewrite skipn_app, skipn_all, Nat.sub_diag. cbn [skipn app].
      rewrite firstn_app, firstn_all, Nat.sub_diag. cbn [firstn]. now rewrite app_nil_r. }
    rewrite T. rewrite app_length in LE. cbn [length] in LE. rewrite app_length in LE. cbn [length] in LE.
    rewrite skipn_app. replace (length w1 - length a)%nat with 0%nat by lia. cbn [skipn].
    replace (skipn (length w1) a ++ c :: w ++ d :: b) with ((skipn (length w1) a ++ c :: w ++ [d]) ++ b).
    2:{ rewrite <- !app_assoc. cbn [app]. now rewrite <- app_assoc. }
    assert (LL : (length (skipn (length w1) a ++ c :: w ++ [d]) = length t - (length b - length w2))%nat).
    { rewrite app_length, skipn_length. cbn [length]. rewrite app_length. cbn [length]. lia. }
    rewrite firstn_app, firstn_all2 by lia. rewrite LL. rewrite <- app_assoc. f_equal. f_equal. f_equal. lia. }
  destruct P as (p & q & P). rewrite P in N. unfold no_ws in N. rewrite Forall_forall in N.
  specialize (N y). rewrite N in Wy; [discriminate|].
  apply in_or_app; right. apply in_or_app; left. right. apply in_or_app; now left.
Qed.

Lemma read_inner_blank ro s : (length s <= r_width ro)%nat -> r_spaces ro = false -> inner_blank s ->
  read_fort_float ro s = Err InvalidFloatError.
Proof.
  intros L RS H. unfold read_fort_float, fortstr2float. rewrite firstn_all2 by auto. rewrite RS.
  destruct (is_blank s) eqn:B.
  - exfalso. destruct H as (a & c & w & d & b & -> & Hc & _). apply is_blank_iff in B.
    unfold all_ws in B. rewrite Forall_forall in B. rewrite B in Hc; [discriminate|].
    apply in_or_app; right; now left.
  - destruct (float_of_str (insert_E s)) eqn:E; auto. exfalso.
    apply float_of_str_no_inner_ws in E. revert E. apply inner_blank_strip.
    unfold insert_E. now apply insert_E_loop_inner.
Qed.

Lemma bare_exponent_after_point : exists s,
  s = $"1.+5" /\
  forall sp pr w, (4 <= w)%nat -> fortstr2float sp pr (Some w) s = Err InvalidFloatError.
Proof.
  exists $"1.+5". split; [reflexivity|]. intros sp pr w H. unfold fortstr2float.
  rewrite firstn_all2 by (cbn; lia). destruct sp; reflexivity.
Qed.
