(** Which real fields the Python reader accepts. *)
From Coq Require Import Ascii String ZArith QArith Bool Lia List.
From Coq Require Import Floats.SpecFloat.
From Verif Require Import PyBase ProofPyBase PyFloat ProofFloat ModelFortran ModelRecords
  SpecFields ProofFields SpecFloat ProofFloatText.
Import ListNotations.
Open Scope Z_scope.

Definition nsigns (s : str) : nat := length (filter is_sign s).
Lemma nsigns_app a b : nsigns (a ++ b) = (nsigns a + nsigns b)%nat.
Proof. unfold nsigns. now rewrite filter_app, app_length. Qed.
Lemma nsigns_digits s : all_digits s -> nsigns s = 0%nat.
Proof. intros H. induction H as [|c s Hc H IH]; [reflexivity|]. unfold nsigns in *. cbn. now rewrite is_sign_digit. Qed.

(** the literals that [float] parses *)
Lemma parse_decimal_inv u m e : parse_decimal u = Some (m, e) ->
  exists ip point fp ex k, u = ip ++ point ++ fp ++ ex /\ all_digits ip /\ all_digits fp /\ ip ++ fp <> [] /\
    (point = [] /\ fp = [] \/ point = $".") /\ (fstr ex -> exponent_text false ex k) /\
    m = digits_value (ip ++ fp) /\ e = k - Z.of_nat (length fp).
Proof.
  unfold parse_decimal. destruct (span_digits u) as [ip r1] eqn:E1.
  apply span_digits_inv in E1 as (-> & D1 & S1).
  assert (K : forall fp r2, all_digits fp ->
     match ip ++ fp with
      | [] => None
      | ds =>
          match r2 with
          | [] => Some (dval ds, - Z.of_nat (length fp))
          | c :: r =>
              if chr_eqb (lower c) "e"
              then let '(neg, r3) := take_sign r in
                   let '(ep, r4) := span_digits r3 in
                   match ep, r4 with
                   | _ :: _, [] => Some (dval ds, - Z.of_nat (length fp) + (if neg then - dval ep else dval ep))
                   | _, _ => None
                   end
              else None
          end
      end = Some (m, e) ->
      exists k, ip ++ fp <> [] /\ (fstr r2 -> exponent_text false r2 k) /\
        m = digits_value (ip ++ fp) /\ e = k - Z.of_nat (length fp)).
  { intros fp r2 D2 H. assert (DD : all_digits (ip ++ fp)) by (apply Forall_app; auto).
    destruct (ip ++ fp) as [|c0 ds] eqn:Ed; [discriminate|].
    cbv beta iota zeta in H. rewrite (dval_digits (c0 :: ds)) in H by auto.
    destruct r2 as [|c r].
    { inversion H; subst. exists 0. split; [congruence|]. split; [constructor|]. split; [congruence|lia]. }
    destruct (chr_eqb (lower c) "e") eqn:Ec; [|discriminate].
    destruct (take_sign r) as [neg r3] eqn:T. destruct (span_digits r3) as [ep r4] eqn:S.
    destruct ep as [|c1 ep]; [discriminate|]. destruct r4; [|discriminate].
    apply span_digits_inv in S as (E3 & D3 & _). rewrite app_nil_r in E3.
    rewrite (dval_digits (c1 :: ep)) in H by auto.
    exists (if neg then - digits_value (c1 :: ep) else digits_value (c1 :: ep)).
    split; [congruence|]. split; [|inversion H; subst; split; [congruence|destruct neg; lia]].
    intros F. apply Forall_inv in F.
    assert (Hc : c = "E"%char \/ c = "e"%char).
    { unfold fchars in F. rewrite !orb_true_iff in F. rewrite !chr_eqb_eq in F.
      destruct F as [[[[[F|F]|F]|F]|F]|F]; auto; subst; try discriminate.
      apply chr_eqb_eq in Ec. apply is_digit_code in F. unfold lower in Ec.
      destruct ((65 <=? code c)%nat && (code c <=? 90)%nat) eqn:R.
      - apply andb_true_iff in R as [R _]. apply Nat.leb_le in R. lia.
      - subst c. vm_compute in F. lia. }
    assert (DS : digit_string (c1 :: ep)) by now apply digit_string_all.
    apply take_sign_inv in T as [[-> T]|[-> [T|T]]]; subst r r3.
    - apply (exp_letter c $"-" (c1 :: ep)); auto. discriminate.
    - apply (exp_letter c $"+" (c1 :: ep)); auto. discriminate.
    - apply (exp_letter c [] (c1 :: ep)); auto. discriminate. }
  destruct r1 as [|c r].
  - intros H. destruct (K [] [] (Forall_nil _) H) as (k & N & X & M & E).
    exists ip, [], [], [], k. repeat split; auto; constructor.
  - destruct (chr_eqb c ".") eqn:Ep.
    + destruct (span_digits r) as [fp r2] eqn:E2. apply span_digits_inv in E2 as (-> & D2 & _).
      intros H. destruct (K fp r2 D2 H) as (k & N & X & M & E).
      apply chr_eqb_eq in Ep. subst c. exists ip, $".", fp, r2, k. repeat split; auto.
    + intros H. destruct (K [] (c :: r) (Forall_nil _) H) as (k & N & X & M & E).
      exists ip, [], [], (c :: r), k. repeat split; auto; constructor.
Qed.

(** ** The inserted letter: number of signs, first character *)
Lemma insert_step_signs i cur : nsigns (firstn i cur ++ "E"%char :: skipn i cur) = nsigns cur.
Proof.
  rewrite nsigns_app. change ("E"%char :: skipn i cur) with ([ "E"%char ] ++ skipn i cur).
  rewrite nsigns_app. rewrite <- (firstn_skipn i cur) at 3. now rewrite nsigns_app.
Qed.
Lemma insert_E_loop_signs rest : forall i cur, nsigns (insert_E_loop rest i cur) = nsigns cur.
Proof.
  induction rest as [|c rest IH]; intros i cur; [reflexivity|]. cbn [insert_E_loop]. rewrite IH.
  destruct ((0 <? i)%nat && _); [|reflexivity]. destruct (nth_error cur (i - 1)); [|reflexivity].
  destruct (is_digit a); [|reflexivity]. apply insert_step_signs.
Qed.
Lemma insert_E_loop_fstr rest : forall i cur, fstr cur -> fstr (insert_E_loop rest i cur).
Proof.
  induction rest as [|c rest IH]; intros i cur F; [exact F|]. cbn [insert_E_loop]. apply IH.
  destruct ((0 <? i)%nat && _); [|exact F]. destruct (nth_error cur (i - 1)); [|exact F].
  destruct (is_digit a); [|exact F]. rewrite <- (firstn_skipn i cur) in F. apply fstr_app in F as [F1 F2].
  apply fstr_app. split; auto. constructor; auto.
Qed.
Lemma insert_E_loop_head c0 rest : forall i cur, (0 < i)%nat -> exists r, insert_E_loop rest i (c0 :: cur) = c0 :: r.
Proof.
  induction rest as [|c rest IH]; intros i cur P; [exists cur; reflexivity|]. cbn [insert_E_loop]. fold (is_sign c).
  destruct ((0 <? i)%nat && is_sign c); [|apply IH; lia]. destruct (nth_error (c0 :: cur) (i - 1)) as [a|]; [|apply IH; lia].
  destruct (is_digit a); [|apply IH; lia]. destruct i as [|i]; [lia|]. cbn [firstn skipn app]. apply IH. lia.
Qed.
Lemma insert_E_cons c0 t : exists r, insert_E (c0 :: t) = c0 :: r /\ nsigns r = nsigns t /\ (fstr (c0 :: t) -> fstr r).
Proof.
  unfold insert_E. cbn [insert_E_loop Nat.ltb Nat.leb andb].
  destruct (insert_E_loop_head c0 t 1 t) as [r E]; [lia|]. exists r. split; [exact E|]. split.
  - pose proof (insert_E_loop_signs t 1 (c0 :: t)) as S. rewrite E in S. unfold nsigns in *. cbn in S.
    destruct (is_sign c0); cbn in S; lia.
  - intros F. pose proof (insert_E_loop_fstr t 1 _ F) as G. rewrite E in G. now inversion G.
Qed.

Lemma nsigns_nosign s : nsigns s = 0%nat -> forallb (fun c => negb (is_sign c)) s = true.
Proof.
  induction s as [|c s IH]; intros H; [reflexivity|]. unfold nsigns in *. cbn in *.
  destruct (is_sign c); [discriminate|]. cbn. now apply IH.
Qed.
Lemma nsad_nosign b s : nsigns s = 0%nat -> nsad b s = true.
Proof.
  revert b; induction s as [|c s IH]; intros b H; [reflexivity|]. unfold nsigns in *. cbn in *.
  destruct (is_sign c); [discriminate|]. cbn. now apply IH.
Qed.
Lemma nsigns_one s : nsigns s = 1%nat -> exists a c b, s = a ++ c :: b /\ is_sign c = true /\
  nsigns a = 0%nat /\ nsigns b = 0%nat.
Proof.
  induction s as [|c s IH]; intros H; [discriminate|]. unfold nsigns in H. cbn in H.
  destruct (is_sign c) eqn:S.
  - exists [], c, s. repeat split; auto. all: unfold nsigns; cbn in H; lia.
  - destruct (IH H) as (a & d & b & -> & Sd & A & B). exists (c :: a), d, b. repeat split; auto.
    unfold nsigns in *. cbn. now rewrite S.
Qed.

(** the two outcomes with at most one inner sign *)
Lemma insert_E_few c0 t : (nsigns t <= 1)%nat ->
  insert_E (c0 :: t) = c0 :: t \/
  exists a sg q, c0 :: t = a ++ sg :: q /\ is_sign sg = true /\ last_digit a = true /\
    insert_E (c0 :: t) = a ++ "E"%char :: sg :: q.
Proof.
  intros L. destruct (nsigns t) as [|[|n]] eqn:N; [| |lia].
  - left. apply insert_E_id. cbn [nsad]. rewrite andb_false_r. now apply nsad_nosign.
  - destruct (nsigns_one t N) as (a & sg & q & -> & Sg & A & B).
    assert (NA : nsad false (c0 :: a) = true).
    { cbn [nsad]. rewrite andb_false_r. now apply nsad_nosign. }
    destruct (last_digit (c0 :: a)) eqn:LD.
    + right. exists (c0 :: a), sg, q. repeat split; auto.
      pose proof (insert_E_loop_one [] (c0 :: a) sg q NA LD Sg (nsigns_nosign _ B)) as E. exact E.
    + left. apply insert_E_id. change (c0 :: a ++ sg :: q) with ((c0 :: a) ++ sg :: q).
      rewrite nsad_app, NA. cbn [andb nsad]. rewrite LD, andb_false_r. cbn. now apply nsad_nosign.
Qed.

Lemma fstr_strip s : fstr s -> strip s = s.
Proof. intros F. apply strip_no_ws. now apply fstr_no_ws. Qed.

(** the letters of [inf] and [nan] are not in a number *)
Lemma fstr_not_word u w c : fstr u -> In c w -> ~ fchars c = true -> (forall d, fchars d = true -> lower d <> c) ->
  str_eqb (map lower u) w = false.
Proof.
  intros F I _ L. apply str_eqb_neq. intros E. rewrite <- E in I. apply in_map_iff in I as (d & Hd & I).
  unfold fstr in F. rewrite Forall_forall in F. exact (L d (F d I) Hd).
Qed.
Lemma lower_fchars d : fchars d = true -> lower d <> "n"%char.
Proof.
  unfold fchars. rewrite !orb_true_iff, !chr_eqb_eq.
  intros [[[[[H| ->]| ->]| ->]| ->]| ->]; try (vm_compute; discriminate).
  apply is_digit_code in H. unfold lower.
  destruct ((65 <=? code d)%nat && (code d <=? 90)%nat) eqn:R.
  - apply andb_true_iff in R as [R _]. apply Nat.leb_le in R. lia.
  - intros ->. vm_compute in H. lia.
Qed.

Lemma float_of_fstr x f : fstr x -> float_of_str x = Some f ->
  exists neg u m e, take_sign x = (neg, u) /\ parse_decimal u = Some (m, e) /\
    f = round64 neg (dec_num m e) (dec_den e).
Proof.
  intros F. unfold float_of_str. rewrite fstr_strip by auto. unfold us_ok.
  rewrite fstr_us_ok, fstr_drop_us by auto. cbn [negb].
  destruct (take_sign x) as [neg u] eqn:T.
  assert (Fu : fstr u).
  { apply take_sign_inv in T as [[_ ->]|[_ [->| ->]]]; auto; now inversion F. }
  rewrite !(fstr_not_word u _ "n"%char) by
    (auto; try discriminate; try (cbn; tauto); apply lower_fchars).
  cbn [orb]. destruct (parse_decimal u) as [[m e]|] eqn:P; [|discriminate].
  intros H. inversion H. exists neg, u, m, e. auto.
Qed.

Lemma nsigns_exponent ex k : exponent_text false ex k -> (nsigns ex <= 1)%nat.
Proof.
  intros X. inversion X as [|c sg ds Hc Hs Nd Dd|]; subst; [cbn; lia|].
  apply digit_string_all in Dd. change (c :: sg ++ ds) with ([c] ++ sg ++ ds).
  rewrite !nsigns_app, (nsigns_digits ds) by auto.
  destruct Hc; subst; destruct Hs as [->|[->| ->]]; vm_compute; lia.
Qed.

(** a number without spaces that is accepted is in Fortran notation *)
Lemma accepted_text t f : fstr t -> t <> [] -> float_of_str (insert_E t) = Some f ->
  exists neg m e, fortran_text t neg m e /\ f = round64 neg (dec_num m e) (dec_den e).
Proof.
  intros F N H. destruct t as [|c0 t]; [contradiction|]. clear N.
  destruct (insert_E_cons c0 t) as (x & Ex & Nx & Fx). specialize (Fx F).
  assert (Fxx : fstr (c0 :: x)) by (constructor; [now inversion F|exact Fx]).
  rewrite Ex in H. destruct (float_of_fstr _ _ Fxx H) as (neg & u & m & e & T & P & ->).
  exists neg, m, e. split; [|reflexivity].
  destruct (parse_decimal_inv u m e P) as (ip & point & fp & ex & k & Eu & Di & Df & Nn & PP & X & -> & ->).
  assert (Fu : fstr u).
  { apply take_sign_inv in T as [[_ T]|[_ [T|T]]]; [| |now rewrite <- T]; inversion T; subst; auto. }
  assert (Fe : fstr ex) by (rewrite Eu, !fstr_app in Fu; tauto). specialize (X Fe).
  assert (HS : exists sign, c0 :: x = sign ++ u /\
     (sign = [] /\ neg = false \/ sign = $"+" /\ neg = false \/ sign = $"-" /\ neg = true)).
  { apply take_sign_inv in T as [[-> T]|[-> [T|T]]];
      [exists $"-"|exists $"+"|exists []]; rewrite T; auto. }
  destruct HS as (sign & Es & HS).
  assert (NP : nsigns (ip ++ point ++ fp) = 0%nat).
  { rewrite !nsigns_app, (nsigns_digits ip), (nsigns_digits fp) by auto.
    destruct PP as [[-> _]| ->]; reflexivity. }
  pose proof (nsigns_exponent ex k X) as NE.
  assert (NX : (nsigns t <= 1)%nat).
  { rewrite <- Nx.
    assert (NU : (nsigns u <= 1)%nat).
    { rewrite Eu. replace (ip ++ point ++ fp ++ ex) with ((ip ++ point ++ fp) ++ ex) by now rewrite <- !app_assoc.
      rewrite nsigns_app. lia. }
    destruct HS as [[-> _]|[[-> _]|[-> _]]]; cbn [list_ascii_of_string app] in Es; [|now inversion Es..].
    rewrite <- Es in NU. unfold nsigns in *. cbn in NU. destruct (is_sign c0); cbn in NU; lia. }
  set (Pm := sign ++ ip ++ point ++ fp) in *.
  assert (EPm : c0 :: x = Pm ++ ex) by (rewrite Es, Eu; unfold Pm; now rewrite <- !app_assoc).
  destruct (insert_E_few c0 t NX) as [I|(a & sg & q & Ea & Sg & LD & I)]; rewrite Ex in I.
  - rewrite <- I, EPm. unfold Pm. exists sign, ip, point, fp, false, ex, k.
    rewrite <- !app_assoc. repeat split; auto; try (now apply digit_string_all).
    destruct PP as [PP| ->]; [now left|right]. split; auto. discriminate.
  - (* the letter was inserted: it is the start of the exponent *)
    rewrite I in EPm.
    assert (NoE : forall c, In c Pm -> c <> "E"%char /\ c <> "e"%char).
    { intros c Hc. unfold Pm in Hc. rewrite !in_app_iff in Hc.
      assert (DD : forall l, all_digits l -> In c l -> c <> "E"%char /\ c <> "e"%char).
      { intros l D Il. unfold all_digits in D. rewrite Forall_forall in D. specialize (D c Il).
        split; intros ->; discriminate. }
      destruct Hc as [Hc|[Hc|[Hc|Hc]]]; eauto.
      - destruct HS as [[-> _]|[[-> _]|[-> _]]]; cbn in Hc; [tauto|destruct Hc as [<-|[]]; split; discriminate..].
      - destruct PP as [[-> _]| ->]; cbn in Hc; [tauto|destruct Hc as [<-|[]]; split; discriminate]. }
    assert (Split : Pm = a /\ ex = "E"%char :: sg :: q).
    { symmetry in EPm. apply app_eq_app in EPm as (l & [[E1 E2]|[E1 E2]]).
      - destruct l as [|y l]; [rewrite app_nil_r in E1; auto|]. exfalso.
        (* Pm = a ++ y :: l and E :: sg :: q = y :: l ++ ex *)
        cbn [app] in E2. inversion E2; subst y.
        destruct (NoE "E"%char) as [NN _]; [rewrite E1; apply in_or_app; right; now left|contradiction].
      - destruct l as [|y l]; [rewrite app_nil_r in E1; cbn in E2; auto|]. exfalso.
        (* a = Pm ++ y :: l and ex = y :: l ++ E :: sg :: q *)
        rewrite E2 in X. cbn [app] in X. inversion X as [|c sg' ds Hc Hs Nd Dd [Ey E4]|].
        assert (IE : In "E"%char (sg' ++ ds)) by (match goal with E : _ = l ++ _ |- _ => rewrite E end; apply in_or_app; right; now left).
        apply in_app_or in IE as [IE|IE].
        + destruct Hs as [->|[->| ->]]; cbn in IE; [tauto|destruct IE as [IE|[]]; discriminate..].
        + apply Dd in IE. discriminate. }
    destruct Split as [<- ->].
    rewrite Ea. unfold Pm.
    inversion X as [|c sg' ds Hc Hs Nd Dd|]; subst.
    match goal with E : _ ++ _ = sg :: q |- _ => rename E into Eq' | _ => idtac end.
    assert (SG : sg' = [sg] /\ ds = q).
    { destruct Hs as [->|[->| ->]]; cbn [list_ascii_of_string app] in *.
      - exfalso. destruct ds as [|d ds]; [contradiction|]. inversion Eq'; subst.
        specialize (Dd sg (or_introl eq_refl)). rewrite is_sign_digit in Sg by auto. discriminate.
      - now inversion Eq'.
      - now inversion Eq'. }
    destruct SG as [-> ->].
    exists sign, ip, point, fp, true, ([sg] ++ q).
    eexists. split; [now rewrite <- !app_assoc|]. split; [exact HS|].
    split; [now apply digit_string_all|]. split; [now apply digit_string_all|]. split; [exact Nn|].
    split.
    { destruct PP as [PP| ->]; [now left|right]. split; auto. intros _ ->.
      unfold Pm in LD. rewrite !app_assoc, app_nil_r in LD. 
      change $"." with [ "."%char ] in LD. rewrite last_digit_snoc in LD. discriminate. }
    split; [apply exp_bare; [|exact Nd|exact Dd]|].
    { destruct Hs as [Hs|[Hs|Hs]]; [discriminate|now left|now right]. }
    split; [reflexivity|]. reflexivity.
Qed.

(** ** Fields *)

Lemma spread_remove_space s : spread (remove_chr " "%char s) s.
Proof.
  unfold remove_chr. induction s as [|c s IH]; cbn; [constructor|].
  destruct (chr_eqb c " "%char) eqn:E; cbn.
  - apply chr_eqb_eq in E. subst c. now constructor.
  - now constructor.
Qed.

Lemma insert_E_loop_ws rest : all_ws rest -> forall i cur, insert_E_loop rest i cur = cur.
Proof.
  intros W i cur. apply insert_E_loop_nosign. now apply nosign_ws.
Qed.

Lemma insert_E_loop_app a b : forall i cur,
  insert_E_loop (a ++ b) i cur = insert_E_loop b (i + length a) (insert_E_loop a i cur).
Proof.
  induction a as [|c a IH]; intros i cur; cbn [app insert_E_loop length].
  - now rewrite Nat.add_0_r.
  - rewrite IH. f_equal. lia.
Qed.

(** the loop on the text behind blanks *)
Lemma insert_E_loop_shift rest w1 w2 : all_ws w1 -> forall i cur, (i + length rest <= length cur)%nat ->
  insert_E_loop rest (length w1 + i) (w1 ++ cur ++ w2) = w1 ++ insert_E_loop rest i cur ++ w2.
Proof.
  intros W. induction rest as [|c rest IH]; intros i cur L; [reflexivity|].
  cbn [insert_E_loop length] in *. fold (is_sign c).
  set (cur1 := if (0 <? i)%nat && is_sign c then _ else cur).
  assert (L1 : (length cur <= length cur1)%nat).
  { unfold cur1. destruct ((0 <? i)%nat && is_sign c); [|lia]. destruct (nth_error cur (i - 1)) as [d|]; [|lia].
    destruct (is_digit d); [|lia]. rewrite app_length. cbn [length].
    rewrite <- (firstn_skipn i cur) at 1. rewrite app_length. lia. }
  assert (E : (if (0 <? length w1 + i)%nat && is_sign c then
      match nth_error (w1 ++ cur ++ w2) (length w1 + i - 1) with
      | Some d => if is_digit d then firstn (length w1 + i) (w1 ++ cur ++ w2) ++ "E"%char :: skipn (length w1 + i) (w1 ++ cur ++ w2)
                  else w1 ++ cur ++ w2
      | None => w1 ++ cur ++ w2 end else w1 ++ cur ++ w2) = w1 ++ cur1 ++ w2).
  { unfold cur1. destruct (is_sign c) eqn:Sg; [|now rewrite !andb_false_r]. rewrite !andb_true_r.
    destruct i as [|i].
    - cbn [Nat.ltb Nat.leb]. destruct w1 as [|x w1] using rev_ind; [reflexivity|]. clear IHw1.
      replace (0 <? length (w1 ++ [x]) + 0)%nat with true
        by (symmetry; apply Nat.ltb_lt; rewrite app_length; cbn; lia).
      rewrite Nat.add_0_r, nth_error_last. apply Forall_app in W as [_ W]. inversion W; subst.
      destruct (ws_not_sign x) as [_ ->]; auto. now destruct (length (w1 ++ [x])).
    - replace (0 <? length w1 + S i)%nat with true by (symmetry; apply Nat.ltb_lt; lia). cbn [Nat.ltb Nat.leb].
      replace (length w1 + S i - 1)%nat with (length w1 + i)%nat by lia.
      replace (S i - 1)%nat with i by lia.
      rewrite nth_error_app2 by lia. replace (length w1 + i - length w1)%nat with i by lia.
      rewrite nth_error_app1 by lia.
      destruct (nth_error cur i) as [d|]; [|reflexivity]. destruct (is_digit d); [|reflexivity].
      rewrite firstn_app, skipn_app, firstn_all2, skipn_all2 by lia.
      replace (length w1 + S i - length w1)%nat with (S i) by lia.
      rewrite firstn_app, skipn_app. replace (S i - length cur)%nat with 0%nat by lia.
      change (firstn 0 w2) with (@nil ascii). change (skipn 0 w2) with w2.
      rewrite app_nil_r, <- !app_assoc. reflexivity. }
  rewrite E. replace (S (length w1 + i)) with (length w1 + S i)%nat by lia.
  apply IH. lia.
Qed.

Lemma insert_E_pad w1 t w2 : all_ws w1 -> all_ws w2 -> insert_E (w1 ++ t ++ w2) = w1 ++ insert_E t ++ w2.
Proof.
  intros W1 W2. unfold insert_E. rewrite !insert_E_loop_app, (insert_E_loop_ws w1), (insert_E_loop_ws w2) by auto.
  cbn [plus]. pose proof (insert_E_loop_shift t w1 w2 W1 0 t) as H. rewrite Nat.add_0_r in H. apply H. lia.
Qed.

Lemma float_of_str_pad w1 t w2 : all_ws w1 -> all_ws w2 -> float_of_str (w1 ++ t ++ w2) = float_of_str t \/ ~ no_ws t.
Proof.
  intros W1 W2.
  assert (D : no_ws t \/ ~ no_ws t).
  { unfold no_ws. destruct (Forall_Exists_dec (fun c => is_ws c = false)) with (l := t) as [H|H]; auto.
    - intros c. destruct (is_ws c); [right|left]; congruence.
    - right. now apply Exists_Forall_neg in H; [|intros c; destruct (is_ws c); [right|left]; congruence]. }
  destruct D as [D|D]; auto. left. unfold float_of_str. now rewrite strip_padded, (strip_no_ws t) by auto.
Qed.

(** Exactly the fields in Fortran notation and the blank ones are accepted. *)
Lemma accepted_field ro s v : (length s <= r_width ro)%nat -> (forall c, In c s -> fchars c = true \/ c = " "%char) ->
  (read_fort_float ro s = Ok v <->
   (blank s /\ v = NFlt (S754_zero false)) \/
   exists t neg m e, fortran_text t neg m e /\ field_text (r_spaces ro) t s /\
     let f := round64 neg (dec_num m e) (dec_den e) in v = if r_preserve ro then NEndf f s else NFlt f).
Proof.
  intros L A. split.
  - intros H. destruct (is_blank s) eqn:B.
    + left. apply blank_iff in B. split; auto. rewrite read_blank_field in H by auto. congruence.
    + right. unfold read_fort_float, fortstr2float in H. rewrite firstn_all2 in H by auto. rewrite B in H.
      destruct (r_spaces ro) eqn:SP.
      * destruct (float_of_str (insert_E (remove_chr " "%char s))) as [f|] eqn:F; [|discriminate].
        set (t := remove_chr " "%char s) in *.
        assert (Ft : fstr t).
        { apply Forall_forall. intros c I. apply filter_In in I as [I N]. destruct (A c I) as [G|G]; auto.
          subst c. discriminate. }
        assert (Nt : t <> []).
        { intros Z. pose proof (is_blank_remove s) as R. fold t in R. rewrite Z, B in R. discriminate. }
        destruct (accepted_text t f Ft Nt F) as (neg & m & e & T & ->).
        exists t, neg, m, e. split; [exact T|]. split; [apply spread_remove_space|]. cbv zeta.
        inversion H. destruct (r_preserve ro); reflexivity.
      * destruct (float_of_str (insert_E s)) as [f|] eqn:F; [|discriminate].
        destruct (strip_decomp s) as (w1 & w2 & W1 & W2 & E).
        set (t := strip s) in *.
        assert (Nt : t <> []).
        { unfold t. intros Z. apply strip_nil_iff, is_blank_iff in Z. congruence. }
        assert (NW : no_ws t).
        { destruct (Forall_Exists_dec (fun c => is_ws c = false)) with (l := t) as [D|D]; auto.
          { intros c. destruct (is_ws c); [right|left]; congruence. }
          exfalso. apply Exists_exists in D as (x & Ix & Wx).
          assert (Wx' : is_ws x = true) by (destruct (is_ws x); congruence). clear Wx.
          (* an inner blank *)
          assert (IB : inner_blank s).
          { assert (Hd : exists c r, t = c :: r /\ is_ws c = false).
            { pose proof (eq_refl : t = strip s) as Z. destruct t as [|c r]; [contradiction|].
              exists c, r. split; auto. destruct (is_ws c) eqn:Wc; auto. exfalso.
              unfold strip in Z.
              destruct (lstrip_suffix s) as (w & Ww & Es).
              destruct (rstrip_prefix (lstrip s)) as (w' & Ww' & El).
              assert (HL : exists l, lstrip s = c :: l) by (exists (r ++ w'); rewrite El, <- Z; reflexivity).
              destruct HL as [l HL]. clear - HL Wc.
              induction s as [|d s IH]; [discriminate|]. cbn in HL. destruct (is_ws d) eqn:Wd; auto.
              inversion HL; subst. congruence. }
            destruct Hd as (c & r & Et & Wc). 
            assert (HdR : exists d q, t = q ++ [d] /\ is_ws d = false).
            { pose proof (eq_refl : t = strip s) as Z. destruct t as [|d q] using rev_ind; [contradiction|]. clear IHq.
              exists d, q. split; auto. destruct (is_ws d) eqn:Wd; auto. exfalso.
              unfold strip, rstrip in Z. apply (f_equal (@rev ascii)) in Z. rewrite rev_involutive, rev_app_distr in Z.
              cbn in Z. clear - Z Wd. set (y := rev (lstrip s)) in *. clearbody y.
              induction y as [|z y IH]; [discriminate|]. cbn in Z. destruct (is_ws z) eqn:Wz; auto.
              inversion Z; subst. congruence. }
            destruct HdR as (d & q & Eq & Wd).
            destruct r as [|c1 r1 _] using rev_ind.
            { rewrite Et in Ix. destruct Ix as [<-|[]]. congruence. }
            assert (c1 = d) as ->.
            { rewrite Et in Eq. change (c :: r1 ++ [c1]) with ((c :: r1) ++ [c1]) in Eq. now apply app_inj_tail in Eq. }
            exists w1, c, r1, d, w2. rewrite E, Et. cbn [app]. rewrite <- app_assoc. cbn [app].
            repeat split; auto. exists x. split; auto. rewrite Et in Ix. destruct Ix as [Ix|Ix]; [congruence|].
            apply in_app_or in Ix as [Ix|[Ix|[]]]; auto. congruence. }
          pose proof (read_inner_blank ro s L SP IB) as R. unfold read_fort_float, fortstr2float in R.
          rewrite firstn_all2, B, SP, F in R by auto. discriminate. }
        assert (Ft : fstr t).
        { apply Forall_forall. intros c I. destruct (A c) as [G|G]; auto.
          - rewrite E. apply in_or_app; right. apply in_or_app; now left.
          - unfold no_ws in NW. rewrite Forall_forall in NW. specialize (NW c I). subst c. discriminate. }
        rewrite E, insert_E_pad in F by auto.
        destruct (float_of_str_pad w1 (insert_E t) w2 W1 W2) as [P|P].
        2:{ exfalso. apply P. apply fstr_no_ws. unfold insert_E. now apply insert_E_loop_fstr. }
        rewrite P in F.
        destruct (accepted_text t f Ft Nt F) as (neg & m & e & T & ->).
        exists t, neg, m, e. split; [exact T|]. split.
        { exists w1, w2. split; [exact E|]. split; now apply blank_all_ws. }
        cbv zeta. inversion H. destruct (r_preserve ro); reflexivity.
  - intros [[B ->]|(t & neg & m & e & T & F & ->)].
    + now apply read_blank_field.
    + apply (read_fortran ro s t); auto. unfold field_text in F. destruct (r_spaces ro).
      * exists [], []. rewrite app_nil_r. split; [constructor|]. split; [constructor|]. cbn [app].
        rewrite (spread_remove t s) by auto. apply remove_space_fstr. now apply fortran_text_fstr in T.
      * destruct F as (w1 & w2 & -> & B1 & B2). exists w1, w2.
        split; [|split; [|reflexivity]]; apply Forall_forall; auto.
Qed.

Lemma number_field_chars s : number_field s -> forall c, In c s -> fchars c = true \/ c = " "%char.
Proof.
  intros N c I. destruct (N c I) as [D|[J|E]]; auto; left.
  - unfold fchars. now rewrite D.
  - cbn in J. destruct J as [<-|[<-|[<-|[<-|[<-|[]]]]]]; reflexivity.
Qed.
Lemma accepted_fields ro s : (length s <= r_width ro)%nat -> number_field s ->
  ((exists v, read_fort_float ro s = Ok v) <->
   blank s \/ exists t neg m e, fortran_text t neg m e /\ field_text (r_spaces ro) t s).
Proof.
  intros L N. pose proof (fun v => accepted_field ro s v L (number_field_chars s N)) as A. split.
  - intros (v & H). apply A in H as [[B _]|(t & neg & m & e & T & F & _)]; [now left|]. right. exists t, neg, m, e. auto.
  - intros [B|(t & neg & m & e & T & F)]; eexists; apply A; [now left|]. right. exists t, neg, m, e.
    split; [exact T|]. split; [exact F|]. reflexivity.
Qed.
