(** The generated C++ functions for writing: fields and records. *)
From Coq Require Import Ascii String ZArith Bool Lia List.
From Coq Require Import Floats.SpecFloat.
From Verif Require Import PyBase ProofPyBase PyFloat ProofFloat ModelFortran ModelRecords ModelTape SpecFields ProofFields SpecFloat SpecTape ProofRecords ProofCppWrite ProofCppTab.
From Verif Require Import ModelNum ModelRecipe ModelInterp SpecInterp
  ModelCpp ModelCppTab ModelCppArr SpecCpp SpecCppTab SpecCppRead ModelCppGen SpecCppGen ModelCppWrite SpecCppWrite.
From Verif Require Import ProofInterp ProofInterpSec ProofInterpFrame ProofInterpWrite ProofInterpMap.
From Verif Require Import ProofCppArr ProofCppGenRead ProofCppGenMap ProofCppGenEval ProofCppGenReg ProofCppWriteEval ProofCppWriteBase.
Import ListNotations.
Open Scope Z_scope.

(** ** The six fields of a line *)

Lemma slot_put (x r : str) : forall (fs : list str) j, Forall (fun t : str => length t = 11%nat) fs -> (j < length fs)%nat ->
  c_replace (concat fs ++ r) (j * 11) 11 x = concat (replace j x fs) ++ r.
Proof.
  intros fs j F J.
  assert (K : exists a y b, fs = a ++ y :: b /\ length a = j).
  { destruct (nth_error fs j) as [y|] eqn:E; [|apply nth_error_None in E; lia]. apply nth_error_split in E as (a & b & -> & L). eauto. }
  destruct K as (a & y & b & -> & L). apply Forall_app in F as [FA FB]. inversion FB as [|? ? Y FB']; subst.
  assert (R : replace (length a) x (a ++ y :: b) = a ++ x :: b) by (clear; induction a as [|z a IH]; cbn [length app replace]; [reflexivity|now rewrite IH]).
  rewrite R, !concat_app. cbn [concat]. rewrite <- !app_assoc. apply c_replace_at; [|exact Y].
  rewrite (length_concat_widths 11 a FA). lia.
Qed.

Section Records.
  Variables (o : cwopts) (preserve : bool) (wo : wopts) (whole : bool) (c : ctrl) (en : env).
  Hypothesis EW : e_write en = true.
  Hypothesis EO : e_wo en = wo.
  Hypothesis SO : same_options o wo.
  Hypothesis CF : ctrl_fits c.
  Notation regular := (Forall (regular_wnote o preserve wo whole)).

  Lemma width11 : w_width wo = 11%nat. Proof. apply SO. Qed.
  Lemma linenum_same : cw_linenum o = w_linenum wo. Proof. symmetry. apply SO. Qed.

  Definition text_as (t : ctype) (n : num) (x : str) : Prop :=
    length x = 11%nat /\
    match t with
    | TInt => exists z, n = NInt z /\ int32 z /\ x = rjust 11 (str_of_Z z)
    | TFloat => float2fortstr wo n = Ok x
    | TStr => False
    end.
  Lemma int_text z : int32 z -> text_as TInt (NInt z) (rjust 11 (str_of_Z z)).
  Proof.
    intros I. split; [|exists z; auto]. apply length_int_field. apply in_field_fits; [lia|]. unfold int32 in I. unfold in_field. cbn. lia.
  Qed.
  Lemma real_note v e : regular_wnote o preserve wo whole (Real v e) -> exists t, length t = 11%nat /\ float2fortstr wo v = Ok t /\ cpp_endf_text o preserve e = Val t.
  Proof. auto. Qed.
  Definition puts (st st' : wstate) (j : nat) (x : str) : Prop :=
    w_out st' = w_out st /\ w_num st' = w_num st /\ w_draft st' = c_replace (w_draft st) (j * 11) 11 x.

  Lemma assign_keep up lv s st x ix v st' : wrel c up lv s (w_c st) -> w_assign x ix v st = Val st' -> (exists b, indices_ok lv ix = Some b) ->
    (forall z, v = vint z -> dict_value (k_loops (w_c st)) (k_cur (w_c st)) x ix = Val (vint z)) ->
    wkeep (w_c st) (w_c st') /\ st' = w_with (w_c st') st.
  Proof.
    intros R H [b IX] V. unfold w_assign in H. cbs H as f E. injection H as <-. split; [|reflexivity].
    apply assign_inv in E as (I & D & _); auto.
    - split; cbn [w_with with_cur w_c k_up k_loops k_cur]; auto.
    - apply (wr_inv _ _ _ _ _ R).
    - intros q i -> Q. rewrite (wr_loops _ _ _ _ _ R) in Q. cbn [indices_ok] in IX. destruct (index_ok lv q) eqn:IO; [|discriminate].
      eapply index_both; eauto using wr_lv.
  Qed.
  Lemma put_value_both t j v st st1 w : put_value o preserve t j v st = Val (st1, w) -> regular (w_notes st1) ->
    exists n x, v = VNum n /\ text_as t n x /\ puts st st1 j x /\ w_c st1 = w_c st /\ (forall z, w = vint z -> v = vint z).
  Proof.
    intros H RN. destruct t; cbn [put_value] in H; [| |discriminate].
    - cbs H as z E. injection H as <- <-. destruct v as [[y| |]| | | | | | |]; try discriminate. cbn [cast_int] in E. destruct ((_ <=? y) && (y <? _)) eqn:B; [|discriminate].
      injection E as ->. apply andb_true_iff in B as [B1 B2]. apply Z.leb_le in B1. apply Z.ltb_lt in B2.
      exists (NInt z), (rjust 11 (str_of_Z z)). split; [reflexivity|]. split; [apply int_text; unfold int32; lia|]. split; [repeat split|]. split; [reflexivity|]. auto.
    - cbs H as [n e] E. unfold put_float in H. cbs H as s2 E2. cbs E2 as l E3. injection E2 as <-. injection H as <- <-.
      cbn [w_note w_notes] in RN. apply Forall_app in RN as [_ RN]. apply Forall_inv, real_note in RN. destruct RN as (t & T1 & T2 & T3).
      unfold cpp_write_endf_field in E3. rewrite T3 in E3. cbn [cbind] in E3. rewrite T1 in E3. cbn in E3. injection E3 as <-.
      destruct v as [[|f|f s0]| | | | | | |]; try discriminate; injection E as <- <-.
      + exists (NFlt f), t. split; [reflexivity|]. split; [split; auto|]. split; [repeat split|]. split; [reflexivity|]. intros z Z. unfold num_of in Z. cbn in Z. discriminate Z.
      + exists (NEndf f s0), t. split; [reflexivity|]. split; [split; auto|]. split; [repeat split|]. split; [reflexivity|]. intros z Z. unfold num_of in Z. destruct s0; cbn in Z; discriminate Z.
  Qed.
  Lemma raw_known s x ix n : get_raw (scope_of s) false x ix = Ok (VNum n) -> eval_known (e_depth en) (scope_of s) false false (EVar x ix) = Ok (VNum n).
  Proof. intros H. unfold eval_known. rewrite eval_expr_eq. unfold eval_var. rewrite H. reflexivity. Qed.
  Lemma incons_known s x ix n : get_raw (scope_of s) false x ix = Ok (VNum n) -> eval_known (e_depth en) (scope_of s) false false (EIncons x ix) = Ok (VNum n).
  Proof. intros H. unfold eval_known. rewrite eval_expr_eq. unfold eval_var. rewrite H. reflexivity. Qed.

  Definition value_of (s : pstate) (e : expr) (n : num) : Prop := eval_known (e_depth en) (scope_of s) false false e = Ok (VNum n).

  Lemma wfield_both up lv t cur e j s st st' : wrel c up lv s (w_c st) -> wfield o preserve up lv t cur e j st = Val st' -> regular (w_notes st') ->
    exists n x, value_of s e n /\ text_as t n x /\ wkeep (w_c st) (w_c st') /\ puts st st' j x.
  Proof.
    intros R H RN. unfold wfield in H. destruct (plan_of up lv cur t e) as [p|] eqn:PL; [|discriminate].
    assert (VAR : forall x ix (k : val -> wstate -> cpp wstate), (plan_of up lv cur t e = Some (Assign x ix) \/ plan_of up lv cur t e = Some (AssignOrCheck x ix)) ->
      (let* v := dict_value (k_loops (w_c st)) (k_cur (w_c st)) x ix in let* (s1, w) := put_value o preserve t j v st in k w s1) = Val st' ->
      (forall w s1, k w s1 = Val st' -> st' = s1 \/ w_assign x ix w s1 = Val st') ->
      exists n x, value_of s e n /\ text_as t n x /\ wkeep (w_c st) (w_c st') /\ puts st st' j x).
    { intros x ix k PP Q KK. cbs Q as v EV. cbs Q as [s1 w] EP. apply KK in Q.
      assert (EX : (e = EVar x ix \/ e = EIncons x ix) /\ known x lv = false /\ exists b, indices_ok lv ix = Some b).
      { assert (PV : forall y iy, (plan_var up lv cur t y iy = Some (Assign x ix) \/ plan_var up lv cur t y iy = Some (AssignOrCheck x ix)) -> y = x /\ iy = ix /\ known x lv = false /\ exists b, indices_ok lv ix = Some b).
        { intros y iy. unfold plan_var. destruct (known y lv) eqn:KN; [intros [?|?]; discriminate|]. destruct (indices_ok lv iy) as [b|] eqn:IX; [|intros [?|?]; discriminate].
          destruct (resolve y (cur :: up)) as [[? k']|]; [destruct (kind_eqb _ _)|]; intros [Y|Y]; try discriminate; injection Y as <- <-; eauto. }
        destruct e; cbn [plan_of] in PP; try (destruct PP; discriminate).
        - apply PV in PP as (-> & -> & A & B). auto.
        - apply PV in PP as (-> & -> & A & B). auto.
        - destruct v0; destruct PP; discriminate. }
      destruct EX as (EX & KN & IX).
      assert (RN1 : regular (w_notes s1)).
      { destruct Q as [->|Q]; [exact RN|]. eapply wgrows_forall; [eapply w_assign_grows; exact Q|exact RN]. }
      destruct (put_value_both t j v st s1 w EP RN1) as (n & y & -> & TX & PU & WC & WV).
      assert (GR : get_raw (scope_of s) false x ix = Ok (VNum n)).
      { apply (dict_value_raw lv s (k_cur (w_c st))); auto; try apply R. rewrite <- (wr_loops _ _ _ _ _ R). exact EV. }
      exists n, y. split; [destruct EX as [-> | ->]; [now apply raw_known|now apply incons_known]|]. split; [exact TX|].
      destruct Q as [->|Q].
      - split; [rewrite WC; apply wkeep_refl|exact PU].
      - destruct (assign_keep up lv s s1 x ix w st') as [K ->]; auto.
        + now rewrite WC.
        + intros z Z. rewrite WC, EV. f_equal. auto.
        + rewrite WC in K. split; [exact K|]. exact PU. }
    destruct p as [v|x ix|x ix].
    - assert (EV : value_of s e v).
      { destruct e; cbn [plan_of] in PL; try discriminate; try (unfold plan_var in PL; destruct (known x lv); [discriminate|]; destruct (indices_ok lv ix); [|discriminate]; destruct (resolve x (cur :: up)) as [[? ?]|]; [destruct (kind_eqb _ _)|]; discriminate).
        destruct v0; try discriminate; injection PL as <-; unfold value_of, eval_known; rewrite eval_expr_eq; reflexivity. }
      destruct t, v as [z|f|]; cbn [put_number] in H; try discriminate.
      + cbs H as z' E. injection H as <-. apply c_int_val in E as [-> I]. exists (NInt z), (rjust 11 (str_of_Z z)). split; [exact EV|]. split; [now apply int_text|]. split; [apply wkeep_refl|]. repeat split.
      + unfold put_float in H. cbs H as l E. injection H as <-. cbn [w_note w_notes] in RN. apply Forall_app in RN as [_ RN]. apply Forall_inv, real_note in RN. destruct RN as (t & T1 & T2 & T3).
        unfold cpp_write_endf_field in E. cbn [cpp_double] in E. rewrite T3 in E. cbn [cbind] in E. rewrite T1 in E. cbn in E. injection E as <-.
        exists (NInt z), t. split; [exact EV|]. split; [split; auto|]. split; [apply wkeep_refl|]. repeat split.
      + unfold put_float in H. cbs H as l E. injection H as <-. cbn [w_note w_notes] in RN. apply Forall_app in RN as [_ RN]. apply Forall_inv, real_note in RN. destruct RN as (t & T1 & T2 & T3).
        unfold cpp_write_endf_field in E. cbn [cpp_double] in E. rewrite T3 in E. cbn [cbind] in E. rewrite T1 in E. cbn in E. injection E as <-.
        exists (NFlt f), t. split; [exact EV|]. split; [split; auto|]. split; [apply wkeep_refl|]. repeat split.
    - eapply (VAR x ix (w_assign x ix)); eauto.
    - eapply (VAR x ix (w_assign_new x ix)); eauto. intros w s1 Q. unfold w_assign_new in Q. cbs Q as b E. destruct b; [injection Q as ->|]; auto.
  Qed.

  (** several fields *)
  Definition put_all (l : list (nat * str)) (d : str) : str := fold_left (fun d p => c_replace d (fst p * 11) 11 (snd p)) l d.
  Lemma wfields_both up lv s fs : forall cur st st', wrel c up lv s (w_c st) -> wfields o preserve up lv cur fs st = Val st' -> regular (w_notes st') ->
    exists rs, Forall2 (fun (f : nat * ctype * expr) r => value_of s (snd f) (fst r) /\ text_as (snd (fst f)) (fst r) (snd r)) fs rs /\ wkeep (w_c st) (w_c st') /\
      w_out st' = w_out st /\ w_num st' = w_num st /\ w_draft st' = put_all (combine (map (fun f => fst (fst f)) fs) (map snd rs)) (w_draft st).
  Proof.
    induction fs as [|[[j t] e] fs IH]; intros cur st st' R H RN; cbn [wfields] in H.
    - injection H as <-. exists []. split; [constructor|]. split; [apply wkeep_refl|]. auto.
    - destruct (reg_field up lv t cur e) as [cur'|]; [|discriminate]. cbs H as s1 E.
      assert (RN1 : regular (w_notes s1)) by (eapply wgrows_forall; [eapply wfields_grows; exact H|exact RN]).
      destruct (wfield_both up lv t cur e j s st s1 R E RN1) as (n & x & EV & TX & K & (P1 & P2 & P3)).
      assert (R1 : wrel c up lv s (w_c s1)) by (rewrite <- (add_lines_nil s); eapply wrel_keep; eauto).
      destruct (IH cur' s1 st' R1 H RN) as (rs & F & K2 & Q1 & Q2 & Q3).
      exists ((n, x) :: rs). split; [constructor; auto|]. split; [eapply wkeep_trans; eauto|]. split; [congruence|]. split; [congruence|].
      rewrite Q3, P3. reflexivity.
  Qed.

  (** ** Steps *)

  Definition ctl (b : str) : str := b ++ write_ctrl c.
  Definition wstep (s s' : pstate) (st st' : wstate) : Prop :=
    exists bs bs', s' = add_lines (map ctl bs) s /\ Forall2 (body_alike wo whole) bs bs' /\ Forall (fun b : str => length b = 66%nat) bs /\ wkeep (w_c st) (w_c st') /\
      w_out st' = w_out st ++ tab_text o c (w_num st) bs' /\ w_num st' = w_num st + Z.of_nat (length bs').
  Lemma tab_text_app a : forall k b, tab_text o c k (a ++ b) = tab_text o c k a ++ tab_text o c (k + Z.of_nat (length a)) b.
  Proof.
    induction a as [|l a IH]; intros k b; cbn [app tab_text length]; [now rewrite Z.add_0_r|]. rewrite IH, <- app_assoc. replace (k + Z.of_nat (S (length a))) with (k + 1 + Z.of_nat (length a)) by lia. now rewrite <- !app_assoc.
  Qed.
  Lemma wstep_refl s st : wstep s s st st.
  Proof. exists [], []. cbn. rewrite add_lines_nil, app_nil_r, Z.add_0_r. repeat split; auto. Qed.
  Lemma len66 x0 x1 x2 x3 x4 x5 : Forall (fun t : str => length t = 11%nat) [x0; x1; x2; x3; x4; x5] -> length (x0 ++ x1 ++ x2 ++ x3 ++ x4 ++ x5) = 66%nat.
  Proof. intros F. pose proof (length_concat_widths 11 _ F) as L. cbn [concat length] in L. rewrite app_nil_r in L. exact L. Qed.
  Lemma line66 x0 x1 x2 x3 x4 x5 : Forall (fun t : str => length t = 11%nat) [x0; x1; x2; x3; x4; x5] -> length (concat [x0; x1; x2; x3; x4; x5]) = 66%nat.
  Proof. intros F. exact (length_concat_widths 11 _ F). Qed.
  Lemma array_66 fs : widths 11 fs -> Forall (fun l : str => length l = 66%nat) (array_lines 11 fs).
  Proof. intros W. apply array_lines_full in W. exact W. Qed.
  Lemma ints_66 nbt int ls : nbt <> [] -> length nbt = length int -> Forall int32 nbt -> Forall int32 int -> write_endf_ints wo (interleave nbt int) = Ok ls -> Forall (fun l : str => length l = 66%nat) ls.
  Proof.
    intros N L F1 F2 H.
    assert (FI : Forall (ProofPyBase.fits 11) (interleave nbt int)).
    { apply interleave_Forall; eapply Forall_impl; try eassumption; intros z I; apply in_field_fits; try lia; unfold int32 in I; unfold in_field; cbn; lia. }
    rewrite write_ints_array in H; [|apply interleave_nonnil; auto|rewrite width11; auto]. rewrite width11 in H. injection H as <-.
    apply array_66. unfold widths. apply Forall_map. eapply Forall_impl; [|exact FI]. intros z Z. now apply length_int_field.
  Qed.
  Lemma reals_66 xs ys xs' ys' ls : xs <> [] -> length xs = length ys -> Forall2 (same_text o preserve wo) xs xs' -> Forall2 (same_text o preserve wo) ys ys' -> write_endf_floats wo (interleave xs ys) = Ok ls ->
    Forall (fun l : str => length l = 66%nat) ls.
  Proof.
    intros N L X Y H. pose proof (interleave_Forall2 _ _ _ _ _ X Y) as XY.
    assert (T : write_endf_floats wo (interleave xs ys) = Ok (array_lines 11 (map (text_or o preserve) (interleave xs' ys')))).
    { apply floats_text; [exact width11|now apply interleave_nonnil|].
      clear - XY. induction XY as [|v e vs es (t & T1 & T2 & T3) F IH]; cbn [map]; constructor; auto. unfold text_or. rewrite T3. auto. }
    rewrite T in H. injection H as <-. apply array_66. unfold widths. apply Forall_map.
    clear - XY. induction XY as [|v e vs es (t & T1 & T2 & T3) F IH]; constructor; auto. unfold text_or. now rewrite T3.
  Qed.
  Lemma wstep_trans s s1 s2 st st1 st2 : wstep s s1 st st1 -> wstep s1 s2 st1 st2 -> wstep s s2 st st2.
  Proof.
    intros (a & a' & -> & F & L & K & O & N) (b & b' & -> & F2 & L2 & K2 & O2 & N2). exists (a ++ b), (a' ++ b').
    split; [now rewrite add_lines_app, map_app|]. split; [now apply Forall2_app|]. split; [now apply Forall_app|]. split; [eapply wkeep_trans; eauto|].
    split; [rewrite O2, O, N, tab_text_app; now rewrite <- app_assoc|]. rewrite N2, N, app_length. lia.
  Qed.
  Lemma wstep_rel up lv s s' st st' : wstep s s' st st' -> wrel c up lv s (w_c st) -> wrel c up lv s' (w_c st').
  Proof. intros (a & a' & -> & F & _ & K & _) R. eapply wrel_keep; eauto. Qed.
  Lemma wstep_notes s s' st st' l : wstep s s' (w_note l st) st' -> wstep s s' st st'.
  Proof. auto. Qed.
  Lemma same_alike l : Forall2 (body_alike wo whole) l l.
  Proof. induction l; constructor; auto. now left. Qed.

  Definition six : list str := repeat (spaces 11) 6.
  Lemma six_len : Forall (fun t : str => length t = 11%nat) six. Proof. repeat constructor. Qed.
  Lemma prepare_draft st : prepare o c st = {| w_c := w_c st; w_out := w_out st; w_num := w_num st + 1; w_draft := concat six ++ tl o c (w_num st); w_notes := w_notes st |}.
  Proof. unfold prepare. rewrite prepared_line by exact CF. reflexivity. Qed.

  Lemma forall2_cons_inv {A B} (R : A -> B -> Prop) x l m : Forall2 R (x :: l) m -> exists y m', m = y :: m' /\ R x y /\ Forall2 R l m'.
  Proof. intros H. inversion H; subst. eauto. Qed.
  Lemma forall2_nil_inv {A B} (R : A -> B -> Prop) m : Forall2 R [] m -> m = [].
  Proof. intros H. now inversion H. Qed.

  Lemma check_write cs s s1 : check_spec_write cs s = (Ok tt, s1) -> s1 = s.
  Proof. unfold check_spec_write. intros H. now injection H. Qed.
  Lemma map_write_ok es vs s s1 : map_write en es s = (Ok vs, s1) -> s1 = s /\ mapM (eval_known (e_depth en) (scope_of s) false false) es = Ok vs.
  Proof. unfold map_write. intros H. injection H as H <-. auto. Qed.
  Lemma write_ok f s s1 : write_with f s = (Ok tt, s1) -> exists ls, f s = Ok ls /\ s1 = add_lines ls s.
  Proof. unfold write_with. destruct (f s) as [ls|]; intros H; [|discriminate]. injection H as <-. eauto. Qed.
  Lemma int_slot_int n x : text_as TInt n x -> exists z, int_slot wo n = Ok z /\ x = int_field 11 z.
  Proof. intros (_ & z & -> & _ & ->). exists z. split; reflexivity. Qed.

  Lemma cont_both up lv cur cs h f s st s' st' : wrel c up lv s (w_c st) -> do_cont en h cs f s = (Ok tt, s') -> wcont o preserve c up lv cur f st = Val st' ->
    regular (w_notes st') -> wstep s s' st st'.
  Proof.
    intros R PY CP RN. unfold do_cont in PY. rewrite EW in PY. apply mbind_ok in PY as ([] & s1 & H1 & PY). apply check_write in H1 as ->.
    apply mbind_ok in PY as (vs & s2 & H2 & PY). apply map_write_ok in H2 as [-> H2]. apply write_ok in PY as (ls & H3 & ->).
    unfold wcont in CP. cbs CP as s1 E. injection CP as <-. rewrite prepare_draft in E.
    match type of E with wfields _ _ _ _ _ _ ?x = _ => set (st0 := x) in * end.
    destruct (wfields_both up lv s _ _ _ _ (R : wrel c up lv s (w_c st0)) E RN) as (rs & F & K & O & N & D).
    unfold cont_fields, head_fields in F. cbn [app] in F.
    apply forall2_cons_inv in F as ([n0 x0] & m0 & -> & (V0 & T0) & F). apply forall2_cons_inv in F as ([n1 x1] & m1 & -> & (V1 & T1) & F).
    apply forall2_cons_inv in F as ([n2 x2] & m2 & -> & (V2 & T2) & F). apply forall2_cons_inv in F as ([n3 x3] & m3 & -> & (V3 & T3) & F).
    apply forall2_cons_inv in F as ([n4 x4] & m4 & -> & (V4 & T4) & F). apply forall2_cons_inv in F as ([n5 x5] & m5 & -> & (V5 & T5) & F).
    apply forall2_nil_inv in F as ->. cbn [fst snd] in *. unfold value_of in *.
    unfold fields_list in H2. cbn [mapM] in H2. rewrite V0, V1, V2, V3, V4, V5 in H2. cbn [bind] in H2. injection H2 as <-.
    unfold the_ctrl in H3. rewrite (wr_ctrl _ _ _ _ _ R) in H3. cbn [bind cont_of as_num] in H3. unfold write_cont in H3. rewrite EO, width11 in H3. cbn [C1 C2 L1 L2 N1 N2] in H3.
    destruct (int_slot_int _ _ T2) as (z2 & S2 & X2). destruct (int_slot_int _ _ T3) as (z3 & S3 & X3).
    destruct (int_slot_int _ _ T4) as (z4 & S4 & X4). destruct (int_slot_int _ _ T5) as (z5 & S5 & X5).
    rewrite S2, S3, S4, S5 in H3. cbn [bind] in H3. destruct T0 as [L0 T0], T1 as [L1' T1]. rewrite T0, T1 in H3. cbn [bind] in H3. injection H3 as <-.
    assert (DD : w_draft s1 = concat [x0; x1; x2; x3; x4; x5] ++ tl o c (w_num st)).
    { rewrite D. cbn [put_all fold_left combine map fst snd cont_fields head_fields app]. unfold st0. cbn [w_draft].
      destruct T2 as [L2 _], T3 as [L3 _], T4 as [L4 _], T5 as [L5 _].
      unfold put_all. cbn [fold_left fst snd]. 
      do 6 (rewrite slot_put; [cbn [replace six repeat]|repeat (constructor; [first [assumption|reflexivity]|]); constructor|cbn; lia]). reflexivity. }
    exists [x0 ++ x1 ++ x2 ++ x3 ++ x4 ++ x5], [x0 ++ x1 ++ x2 ++ x3 ++ x4 ++ x5].
    split; [cbn [map]; unfold ctl; rewrite X2, X3, X4, X5; now rewrite <- !app_assoc|]. split; [apply same_alike|]. split; [constructor; [|constructor]; apply len66; destruct T2 as [? _], T3 as [? _], T4 as [? _], T5 as [? _]; repeat (constructor; [assumption|]); constructor|]. split; [exact K|].
    cbn [flush w_out w_num tab_text length]. rewrite DD, O, N. unfold st0. cbn [w_out w_num]. split; [|reflexivity].
    cbn [concat]. now rewrite !app_nil_r, <- !app_assoc.
  Qed.

  Lemma put_slots (r : str) : forall l fs, Forall (fun t : str => length t = 11%nat) fs -> Forall (fun p : nat * str => (fst p < length fs)%nat /\ length (snd p) = 11%nat) l ->
    put_all l (concat fs ++ r) = concat (fold_left (fun a p => replace (fst p) (snd p) a) l fs) ++ r.
  Proof.
    induction l as [|[j x] l IH]; intros fs F G; [reflexivity|]. inversion G as [|? ? [J X] G']; subst. cbn [fst snd] in *.
    unfold put_all. cbn [fold_left fst snd]. rewrite slot_put by auto. apply IH.
    - clear - F X. revert j. induction F as [|y fs Y F IH]; intros [|j]; cbn [replace]; constructor; auto.
    - eapply Forall_impl; [|exact G']. intros p [A B]. split; [|exact B].
      assert (RL : forall (fs : list str) j, length (replace j x fs) = length fs) by (clear; induction fs as [|y fs IH]; intros [|j]; cbn [replace length]; auto).
      now rewrite RL.
  Qed.

  Lemma dir_both up lv cur cs l1 l2 n1 n2 s st s' st' : wrel c up lv s (w_c st) -> do_dir en cs [l1; l2; n1; n2] s = (Ok tt, s') ->
    wdir o preserve c up lv cur l1 l2 n1 n2 st = Val st' -> regular (w_notes st') -> wstep s s' st st'.
  Proof.
    intros R PY CP RN. unfold do_dir in PY. rewrite EW in PY. apply mbind_ok in PY as ([] & s1 & H1 & PY). apply check_write in H1 as ->.
    apply mbind_ok in PY as (vs & s2 & H2 & PY). apply map_write_ok in H2 as [-> H2]. apply write_ok in PY as (ls & H3 & ->).
    unfold wdir in CP. cbs CP as s1 E. injection CP as <-. rewrite prepare_draft in E.
    match type of E with wfields _ _ _ _ _ _ ?x = _ => set (st0 := x) in * end.
    destruct (wfields_both up lv s _ _ _ _ (R : wrel c up lv s (w_c st0)) E RN) as (rs & F & K & O & N & D).
    unfold dir_fields in F.
    apply forall2_cons_inv in F as ([k2 x2] & m2 & -> & (V2 & T2) & F). apply forall2_cons_inv in F as ([k3 x3] & m3 & -> & (V3 & T3) & F).
    apply forall2_cons_inv in F as ([k4 x4] & m4 & -> & (V4 & T4) & F). apply forall2_cons_inv in F as ([k5 x5] & m5 & -> & (V5 & T5) & F).
    apply forall2_nil_inv in F as ->. cbn [fst snd] in *. unfold value_of in *.
    cbn [mapM] in H2. rewrite V2, V3, V4, V5 in H2. cbn [bind] in H2. injection H2 as <-.
    destruct T2 as (L2 & z2 & -> & _ & X2), T3 as (L3 & z3 & -> & _ & X3), T4 as (L4 & z4 & -> & _ & X4), T5 as (L5 & z5 & -> & _ & X5).
    unfold the_ctrl in H3. rewrite (wr_ctrl _ _ _ _ _ R) in H3. cbn [bind mapM as_Z] in H3. unfold write_dir in H3. rewrite EO, width11 in H3. injection H3 as <-.
    cbn [D_L1 D_L2 D_N1 D_N2].
    assert (DD : w_draft s1 = concat [spaces 11; spaces 11; x2; x3; x4; x5] ++ tl o c (w_num st)).
    { rewrite D. unfold st0. cbn [w_draft]. cbn [dir_fields combine map fst snd].
      rewrite put_slots; [reflexivity|apply six_len|]. repeat (constructor; [cbn; split; [lia|assumption]|]). constructor. }
    exists [spaces 11 ++ spaces 11 ++ x2 ++ x3 ++ x4 ++ x5], [spaces 11 ++ spaces 11 ++ x2 ++ x3 ++ x4 ++ x5].
    split; [cbn [map]; unfold ctl; rewrite X2, X3, X4, X5; now rewrite <- !app_assoc|]. split; [apply same_alike|]. split; [constructor; [|constructor]; apply len66; repeat (constructor; [first [assumption|reflexivity]|]); constructor|]. split; [exact K|].
    cbn [flush w_out w_num tab_text length]. rewrite DD, O, N. unfold st0. cbn [w_out w_num]. split; [|reflexivity].
    cbn [concat]. now rewrite !app_nil_r, <- !app_assoc.
  Qed.

  (** ** Texts *)

  Lemma raw_up s x ix v : get_raw (scope_of s) false x ix = Ok v -> get_raw (scope_of s) true x ix = Ok v.
  Proof.
    unfold get_raw. destruct (lget x _); [auto|]. cbn [scope_of sc_dic sc_up]. rewrite find_up_eq. now destruct (dget (KStr x) (ps_dic s)).
  Qed.
  Lemma texts_both up lv s (r : str) : forall fs first ofs cur cur' st st' (t : str) ps, reg_text lv cur first ofs fs = Some cur' -> wrel c up lv s (w_c st) ->
    wtexts first ofs fs st = Val st' -> regular (w_notes st') -> mapM (text_piece en (scope_of s)) fs = Ok ps ->
    w_draft st = t ++ spaces (66 - ofs) ++ r -> length t = ofs -> (ofs <= 66)%nat ->
    wkeep (w_c st) (w_c st') /\ w_out st' = w_out st /\ w_num st' = w_num st /\ (ofs + length (concat ps) <= 66)%nat /\
    w_draft st' = t ++ concat ps ++ spaces (66 - (ofs + length (concat ps))) ++ r.
  Proof.
    induction fs as [|[u n] fs IH]; intros first ofs cur cur' st st' t ps RG R H RN PS D L B; cbn [wtexts reg_text mapM] in *.
    - injection H as <-. injection PS as <-. split; [apply wkeep_refl|]. cbn. rewrite Nat.add_0_r. auto.
    - destruct (text_length first (u, n)) as [len|] eqn:TL; [|discriminate]. destruct (66 <? ofs + len)%nat eqn:B2; [discriminate|]. apply Nat.ltb_ge in B2.
      cbs H as s1 E. destruct (text_piece en (scope_of s) (u, n)) as [pc|] eqn:TP; [|discriminate]. cbn [bind] in PS.
      destruct (mapM _ fs) as [ps'|] eqn:PS'; [|discriminate]. cbn [bind] in PS. injection PS as <-.
      assert (SP : forall (q : str), length q = len -> c_replace (t ++ spaces (66 - ofs) ++ r) ofs len q = (t ++ q) ++ spaces (66 - (ofs + len)) ++ r).
      { intros q Q. replace (66 - ofs)%nat with (len + (66 - (ofs + len)))%nat by lia. rewrite spaces_app, <- app_assoc.
        rewrite (c_replace_at t (spaces len)) by (auto; unfold spaces; now rewrite repeat_length). now rewrite <- app_assoc. }
      destruct u as [[x ix]|].
      + destruct (known x lv) eqn:KN; [discriminate|]. destruct (indices_ok lv ix) as [arr|] eqn:IX; [|discriminate]. destruct (kget x cur); [discriminate|].
        cbs E as v EV. cbs E as q EQ. destruct v; try discriminate. injection EQ as ->.
        assert (RN1 : regular (w_notes s1)) by (eapply wgrows_forall; [eapply wtexts_grows; exact H|exact RN]).
        match type of E with w_assign _ _ _ ?x = _ => set (st0 := x) in * end.
        destruct (assign_keep up lv s st0 x ix (VStr q) s1) as [K ES]; auto; [eauto|intros z Z; discriminate Z|].
        assert (NQ : length q = len).
        { rewrite ES in RN1. unfold st0 in RN1. cbn [w_with w_notes w_note w_line] in RN1. apply Forall_app in RN1 as [_ RN1]. now apply Forall_inv in RN1. }
        assert (GR : get_raw (scope_of s) false x ix = Ok (VStr q)).
        { apply (dict_value_raw lv s (k_cur (w_c st))); eauto; try apply R. rewrite <- (wr_loops _ _ _ _ _ R). exact EV. }
        apply raw_up in GR. cbn [text_piece] in TP. unfold get_varval in TP. rewrite GR in TP. cbn [bind] in TP.
        assert (PQ : pc = q) by (destruct n as [n|]; [destruct (Nat.eqb _ _); [|discriminate]|]; now injection TP). subst pc.
        assert (R1 : wrel c up lv s (w_c s1)) by (rewrite <- (add_lines_nil s); eapply wrel_keep; [exact K|exact R]).
        destruct (IH false (ofs + len)%nat _ cur' s1 st' (t ++ q) ps' RG R1 H RN eq_refl) as (K2 & O2 & N2 & B3 & D2).
        * rewrite ES. unfold st0. cbn [w_with w_note w_line w_draft]. rewrite D. now apply SP.
        * rewrite app_length. lia.
        * lia.
        * split; [exact (wkeep_trans _ _ _ K K2)|]. rewrite O2, N2, ES. unfold st0. cbn [w_with w_note w_line w_out w_num]. split; [reflexivity|]. split; [reflexivity|].
          cbn [concat]. rewrite app_length. split; [lia|]. rewrite D2, <- !app_assoc. now replace (ofs + (length q + length (concat ps')))%nat with (ofs + len + length (concat ps'))%nat by lia.
      + injection E as <-. destruct n as [n|]; [|discriminate]. cbn [text_length] in TL. injection TL as ->. cbn [text_piece] in TP. injection TP as <-.
        destruct (IH false (ofs + len)%nat _ cur' st st' (t ++ spaces len) ps' RG R H RN eq_refl) as (K2 & O2 & N2 & B3 & D2).
        * rewrite D. replace (66 - ofs)%nat with (len + (66 - (ofs + len)))%nat by lia. now rewrite spaces_app, <- !app_assoc.
        * rewrite app_length. unfold spaces. rewrite repeat_length. lia.
        * lia.
        * split; [exact K2|]. split; [exact O2|]. split; [exact N2|]. cbn [concat]. rewrite app_length.
          assert (LS : length (spaces len) = len) by (unfold spaces; now rewrite repeat_length). rewrite LS. split; [lia|].
          rewrite D2, <- !app_assoc. now replace (ofs + (len + length (concat ps')))%nat with (ofs + len + length (concat ps'))%nat by lia.
  Qed.
  Lemma text_both up lv cur cur' cs fs s st s' st' : wrel c up lv s (w_c st) -> reg_text lv cur true 0 fs = Some cur' -> do_text en cs fs s = (Ok tt, s') ->
    wtext o c fs st = Val st' -> regular (w_notes st') -> wstep s s' st st'.
  Proof.
    intros R RG PY CP RN. unfold do_text in PY. rewrite EW in PY. apply mbind_ok in PY as ([] & s1 & H1 & PY). apply check_write in H1 as ->.
    apply mbind_ok in PY as (t & s2 & H2 & PY). injection H2 as H2 <-. apply write_ok in PY as (ls & H3 & ->).
    unfold text_write in H2. destruct (mapM _ fs) as [ps|] eqn:PS; [|discriminate]. injection H2 as <-.
    unfold wtext in CP. cbs CP as s1 E. injection CP as <-. rewrite prepare_draft in E.
    match type of E with wtexts _ _ _ ?x = _ => set (st0 := x) in * end.
    destruct (texts_both up lv s (tl o c (w_num st)) fs true 0%nat cur cur' st0 s1 [] ps RG R E RN PS) as (K & O & N & B & D); [reflexivity|reflexivity|lia|].
    unfold the_ctrl in H3. rewrite (wr_ctrl _ _ _ _ _ R) in H3. cbn [bind] in H3. unfold write_text in H3. rewrite EO, width11 in H3. injection H3 as <-.
    exists [ljust (11 * 6) (concat ps)], [ljust (11 * 6) (concat ps)]. split; [reflexivity|]. split; [apply same_alike|].
    split; [constructor; [unfold ljust; rewrite app_length; unfold spaces; rewrite repeat_length; lia|constructor]|]. split; [exact K|].
    cbn [flush w_out w_num tab_text length]. rewrite D, O, N. unfold st0. cbn [w_out w_num]. split; [|reflexivity].
    cbn [app Nat.add]. unfold ljust. now rewrite app_nil_r, <- !app_assoc.
  Qed.

  (** ** Sections *)

  Definition outs (st : wstate) : str * Z * str := (w_out st, w_num st, w_draft st).
  Lemma outs_inj a b : outs a = outs b -> w_out a = w_out b /\ w_num a = w_num b /\ w_draft a = w_draft b.
  Proof. unfold outs. intros H. now injection H. Qed.
  Lemma frame_both {A} (pb : M A) cb (P : list str -> str * Z * str -> str * Z * str -> Prop) V up lv x q s st a s' st' : wrel c up lv s (w_c st) ->
    kget x V = Some KSec -> forallb (index_ok lv) q = true -> (forall a b, cb a = Val b -> wgrows a b) ->
    in_section en (Some (x, q)) pb s = (Ok a, s') -> in_wframe (x, q) cb st = Val st' -> regular (w_notes st') ->
    (forall s1 st1 s2 st2, wrel c (V :: up) lv s1 (w_c st1) -> ps_dic s1 = cf_dict (k_cur (w_c st1)) ++ [w_up] -> outs st1 = outs st ->
       pb s1 = (Ok a, s2) -> cb st1 = Val st2 -> regular (w_notes st2) ->
       exists ls, s2 = add_lines ls s1 /\ wkeep (w_c st1) (w_c st2) /\ P ls (outs st1) (outs st2)) ->
    exists ls, s' = add_lines ls s /\ wkeep (w_c st) (w_c st') /\ P ls (outs st) (outs st').
  Proof.
    intros R KS IX GR PY CP RN ST. unfold in_section in PY. apply mbind_ok in PY as ([] & s1 & OP & PY). apply mbind_ok in PY as (a' & s2 & PB & PY).
    apply mbind_ok in PY as ([] & s3 & CL & PY). injection PY as -> ->. unfold in_wframe in CP. cbs CP as zs EZ. cbs CP as [found f] EF.
    destruct found as [| | |d| | | |]; try discriminate. cbn zeta in CP. cbs CP as st2 EB. 
    assert (RN2 : regular (w_notes st2)) by (destruct (k_up (w_c st2)); [discriminate|]; now injection CP as <-).
    match type of EB with cb ?x = _ => set (st1 := x) in * end.
    assert (NS : known x special_names = false /\ dget (KStr $"MAT") d = None).
    { apply GR in EB as [l EB]. rewrite EB in RN2. unfold st1 in RN2. cbn [w_note w_notes] in RN2. apply Forall_app in RN2 as [RN2 _]. apply Forall_app in RN2 as [_ RN2].
      destruct (known x special_names); [now apply Forall_inv in RN2|]. destruct (dget (KStr $"MAT") d); [now apply Forall_inv in RN2|]. auto. }
    destruct NS as [NS NM].
    destruct (open_w en c V up lv x q s (w_c st) s1 zs (VDict d) f EW R NS KS IX OP EZ EF) as (inner & EI & CI & FD & FI & -> & OU & CT & UPS). injection EI as <-.
    match goal with |- context[?f] => idtac end.
    match type of PB with pb ?x = _ => set (s1 := x) in * end.
    assert (R1 : wrel c (V :: up) lv s1 (w_c st1)).
    { split; unfold s1, st1; cbn [w_note w_with w_c with_frames k_cur k_up k_loops set_up ps_dic ps_up ps_loops ps_look]; try apply R.
      - split; [exact CI|]. exists [w_up]. split; [reflexivity|]. constructor; [apply wk1|constructor].
      - apply winv_empty.
      - exact UPS.
      - apply CT; [exact NM|]. constructor; [apply wk1|constructor]. }
    destruct (ST s1 st1 s2 st2 R1 eq_refl eq_refl PB EB RN2) as (ls & -> & K & PP).
    exists ls. unfold close_section in CL. unfold s1 in CL. cbn [add_lines set_up ps_up ps_dic] in CL. unfold w_up in CL.
    rewrite (ddel_app _ _ d []) in CL by (apply clean_none; [exact CI|apply wk1]). rewrite app_nil_r, OU in CL. injection CL as <-.
    rewrite (wk_up _ _ K) in CP. unfold st1 in CP. cbn [w_note w_with w_c with_frames k_up] in CP. injection CP as <-.
    split; [unfold add_lines; destruct s; reflexivity|]. split.
    - split; cbn [w_with w_c with_frames k_up k_loops k_cur]; auto. rewrite (wk_loops _ _ K). reflexivity.
    - exact PP.
  Qed.

  Lemma named_both {A} (pb : M A) cb (P : list str -> str * Z * str -> str * Z * str -> Prop) name breg up lv c1 cur' s st a s' st' : wrel c up lv s (w_c st) ->
    reg_named up lv c1 name breg = Some cur' -> (forall a b, cb a = Val b -> wgrows a b) ->
    in_section en name pb s = (Ok a, s') -> in_wnamed name cb st = Val st' -> regular (w_notes st') ->
    (forall s1 st1 s2 st2, (exists w, breg (fst (vars_in up c1 name)) (snd (vars_in up c1 name)) = Some w) -> wrel c (fst (vars_in up c1 name)) lv s1 (w_c st1) -> outs st1 = outs st ->
       pb s1 = (Ok a, s2) -> cb st1 = Val st2 -> regular (w_notes st2) ->
       exists ls, s2 = add_lines ls s1 /\ wkeep (w_c st1) (w_c st2) /\ P ls (outs st1) (outs st2)) ->
    exists ls, s' = add_lines ls s /\ wkeep (w_c st) (w_c st') /\ P ls (outs st) (outs st').
  Proof.
    intros R RG GR PY CP RN ST. destruct name as [[x q]|]; cbn [vars_in fst snd reg_named in_wnamed] in *.
    - apply reg_section_inv in RG as (KN & IX & -> & KS & w & W). eapply (frame_both pb cb P (kadd x KSec c1)); eauto.
    - apply (ST s st s' st'); eauto.
  Qed.

  Lemma cont_line n0 n1 n2 n3 n4 n5 x0 x1 x2 x3 x4 x5 : text_as TFloat n0 x0 -> text_as TFloat n1 x1 -> text_as TInt n2 x2 -> text_as TInt n3 x3 -> text_as TInt n4 x4 -> text_as TInt n5 x5 ->
    write_cont wo {| C1 := n0; C2 := n1; L1 := n2; L2 := n3; N1 := n4; N2 := n5 |} c = Ok [ctl (concat [x0; x1; x2; x3; x4; x5])].
  Proof.
    intros T0 T1 T2 T3 T4 T5. unfold write_cont. rewrite width11. cbn [C1 C2 L1 L2 N1 N2].
    destruct (int_slot_int _ _ T2) as (z2 & S2 & X2). destruct (int_slot_int _ _ T3) as (z3 & S3 & X3).
    destruct (int_slot_int _ _ T4) as (z4 & S4 & X4). destruct (int_slot_int _ _ T5) as (z5 & S5 & X5).
    rewrite S2, S3, S4, S5. cbn [bind]. destruct T0 as [_ T0], T1 as [_ T1]. rewrite T0, T1. cbn [bind]. unfold ctl.
    rewrite X2, X3, X4, X5. cbn [concat]. now rewrite !app_nil_r, <- !app_assoc.
  Qed.

  Lemma cast_ints l zs : cmapM cast_int l = Val zs -> mapM as_Z l = Ok zs /\ Forall int32 zs.
  Proof.
    revert zs. induction l as [|v l IH]; intros zs H; cbn [cmapM mapM] in *.
    - injection H as <-. auto.
    - cbs H as z E. cbs H as r ER. injection H as <-. destruct (IH r eq_refl) as [M F]. destruct v as [[y| |]| | | | | | |]; try discriminate. cbn [cast_int] in E.
      destruct ((_ <=? y) && (y <? _)) eqn:B; [|discriminate]. injection E as ->. apply andb_true_iff in B as [B1 B2]. apply Z.leb_le in B1. apply Z.ltb_lt in B2.
      cbn [as_Z bind]. rewrite M. split; [reflexivity|]. constructor; [unfold int32; lia|exact F].
  Qed.
  Lemma cast_floats l xs : cmapM cast_float l = Val xs -> mapM as_num l = Ok (map fst xs).
  Proof.
    revert xs. induction l as [|v l IH]; intros xs H; cbn [cmapM mapM] in *.
    - injection H as <-. auto.
    - cbs H as z E. cbs H as r ER. injection H as <-. rewrite (IH r eq_refl). destruct v as [[y|f|f q]| | | | | | |]; try discriminate; injection E as <-; reflexivity.
  Qed.
  Lemma reals_same xs : regular (reals xs) -> Forall2 (same_text o preserve wo) (map fst xs) (map snd xs).
  Proof. induction xs as [|[v e] xs IH]; intros H; [constructor|]. inversion H; subst. constructor; auto. Qed.

  Lemma column_value lv up s st x l : wrel c up lv s (w_c st) -> known x lv = false -> dict_value (k_loops (w_c st)) (k_cur (w_c st)) x [] = Val (VList l) ->
    eval_known (e_depth en) (scope_of s) false false (EVar x []) = Ok (VList l).
  Proof.
    intros R KN H. assert (G : get_raw (scope_of s) false x [] = Ok (VList l)).
    { apply (dict_value_raw lv s (k_cur (w_c st))); [apply R|apply R|exact KN|now exists false|]. now rewrite <- (wr_loops _ _ _ _ _ R). }
    unfold eval_known. rewrite eval_expr_eq. unfold eval_var. rewrite G. reflexivity.
  Qed.
  Lemma wcolumns_keep up cols : Forall (fun p => exists l, snd p = VList l) cols -> forall cur st, let st' := wcolumns up cur cols st in
    wkeep (w_c st) (w_c st') /\ outs st' = outs st.
  Proof.
    induction 1 as [|[x v] cols [l E] F IH]; intros cur st; cbn [wcolumns]; [split; [apply wkeep_refl|reflexivity]|]. cbn [snd] in E. subst v.
    set (new := w_with _ st). set (s1 := match vget x _ with Some _ => _ | None => new end).
    assert (K : wkeep (w_c st) (w_c s1) /\ outs s1 = outs st).
    { assert (KN : wkeep (w_c st) (w_c new) /\ outs new = outs st).
      { split; [|reflexivity]. split; cbn [new w_with with_cur w_c k_up k_loops k_cur set_cell cf_dict]; auto. intros W. apply (winv_set x); [exact W|]. intros z Z. discriminate Z. }
      assert (KS : wkeep (w_c st) (w_c st) /\ outs st = outs st) by (split; [apply wkeep_refl|reflexivity]).
      unfold s1. repeat match goal with |- context[match ?e with _ => _ end] => destruct e end; auto. }
    destruct K as [K1 K2], (IH (kadd x KTab cur) s1) as [K3 K4]. split; [eapply wkeep_trans; eauto|congruence].
  Qed.
  Lemma ints_nonempty zs ls : write_endf_ints wo zs = Ok ls -> zs <> [].
  Proof. intros H ->. discriminate H. Qed.
  Lemma floats_nonempty zs ls : write_endf_floats wo zs = Ok ls -> zs <> [].
  Proof. intros H ->. discriminate H. Qed.

  Lemma wtab2_grows up' cur' st1 st2 :
    (let get x := dict_value (k_loops (w_c st1)) (k_cur (w_c st1)) x [] in
      let* vi := get $"INT" in
      let* nr := py_len vi in
      let s4 := flush (put_int 4 nr st1) in
      let* int := cast_list cast_int vi in
      let* vn := get $"NBT" in
      let* nbt := cast_list cast_int vn in
      let* (t, n) := cpp_write_tab2_body o c nbt int (w_num s4) in
      let s5 := {| w_c := w_c s4; w_out := w_out s4; w_num := n; w_draft := t; w_notes := w_notes s4 |} in
      Val (flush (wcolumns up' cur' [($"INT", ints int); ($"NBT", ints nbt)] s5))) = Val st2 -> wgrows st1 st2.
  Proof.
    cbn zeta. intros H. cbs H as vi E1. cbs H as nr E2. cbs H as int E3. cbs H as vn E4. cbs H as nbt E5. cbs H as [t n] E6. apply val_inj in H. subst st2.
    apply wgrows_same. cbn [flush w_notes]. now rewrite wcolumns_notes.
  Qed.
  Lemma tab2_both up lv cur cur' cs f name s st s' st' : wrel c up lv s (w_c st) -> 0 <= w_num st -> reg_instr up lv cur (ITab2 cs f name) = Some cur' ->
    do_tab2 en cs f name s = (Ok tt, s') -> wtab2 o preserve c up lv cur f name st = Val st' -> regular (w_notes st') -> wstep s s' st st'.
  Proof.
    intros R NN RG PY CP RN. unfold do_tab2 in PY. rewrite EW in PY. cbn zeta in PY. apply mbind_ok in PY as ([] & s1 & H1 & PY). apply check_write in H1 as ->.
    apply mbind_ok in PY as (vs & s2 & H2 & PY). apply map_write_ok in H2 as [-> H2]. apply mbind_ok in PY as (tv & s3 & H4 & PY). apply write_ok in PY as (ls & H3 & ->).
    unfold wtab2 in CP. cbs CP as s1 E. unfold fields_reg in CP. cbn [reg_instr] in RG. destruct (reg_fields up lv cur (tab2_fields f)) as [c1|] eqn:RF; [|discriminate].
    destruct (vars_in up c1 name) as [up' cur1] eqn:VI. 
    match type of CP with in_wnamed _ ?b _ = _ => set (body := b) in * end.
    assert (GB : forall a b, body a = Val b -> wgrows a b) by (intros a b; apply wtab2_grows).
    assert (RN1 : regular (w_notes s1)) by (eapply wgrows_forall; [eapply in_wnamed_grows; [exact GB|exact CP]|exact RN]).
    rewrite prepare_draft in E. match type of E with wfields _ _ _ _ _ _ ?x = _ => set (st0 := x) in * end.
    destruct (wfields_both up lv s _ _ _ _ (R : wrel c up lv s (w_c st0)) E RN1) as (rs & F & K & O & N & D).
    unfold tab2_fields, head_fields in F. cbn [app] in F.
    apply forall2_cons_inv in F as ([n0 x0] & m0 & -> & (V0 & T0) & F). apply forall2_cons_inv in F as ([n1 x1] & m1 & -> & (V1 & T1) & F).
    apply forall2_cons_inv in F as ([n2 x2] & m2 & -> & (V2 & T2) & F). apply forall2_cons_inv in F as ([n3 x3] & m3 & -> & (V3 & T3) & F).
    apply forall2_cons_inv in F as ([n5 x5] & m5 & -> & (V5 & T5) & F). apply forall2_nil_inv in F as ->. cbn [fst snd] in *. unfold value_of in *.
    cbn [mapM] in H2. rewrite V0, V1, V2, V3, V5 in H2. cbn [bind] in H2. injection H2 as <-.
    assert (DD : w_draft s1 = concat [x0; x1; x2; x3; spaces 11; x5] ++ tl o c (w_num st)).
    { rewrite D. unfold st0. cbn [w_draft]. cbn [tab2_fields head_fields app combine map fst snd].
      rewrite put_slots; [reflexivity|apply six_len|]. repeat (constructor; [cbn; split; [lia|first [apply T0|apply T1|apply T2|apply T3|apply T5]]|]). constructor. }
    assert (R1 : wrel c up lv s (w_c s1)) by (rewrite <- (add_lines_nil s); eapply wrel_keep; [exact K|exact R]).
    set (P := fun (ls : list str) (a b : str * Z * str) => ls = [] /\ exists vn vi nbt int, tv = [vn; vi] /\ as_Zs vn = Ok nbt /\ as_Zs vi = Ok int /\ int32 (Z.of_nat (length int)) /\
      forall ls, length nbt = length int -> write_endf_ints wo (interleave nbt int) = Ok ls ->
        fst (fst b) = fst (fst a) ++ c_replace (snd a) (4 * 11) 11 (rjust 11 (str_of_Z (Z.of_nat (length int)))) ++ tab_text o c (snd (fst a)) ls /\
        snd (fst b) = snd (fst a) + Z.of_nat (length ls) /\ Forall (fun l : str => length l = 66%nat) ls).
    destruct (named_both (map_write en tab_vars) body P name _ up lv c1 cur' s s1 tv s3 st' R1 RG GB H4 CP RN) as (l0 & -> & K2 & -> & vn & vi & nbt & int & -> & A1 & A2 & A3 & A4).
    { rewrite VI. cbn [fst snd]. intros sa ta sb tb [w W] RA OA PA CA RB. apply map_write_ok in PA as [-> PA].
      apply reg_columns_adds in W as [_ W]. destruct (W $"INT") as [KI _]; [now left|]. destruct (W $"NBT") as [KN _]; [right; now left|].
      unfold body in CA. cbn zeta in CA. cbs CA as vi E1. cbs CA as nr E2. cbs CA as int E3. cbs CA as vn E4. cbs CA as nbt E5. cbs CA as [t n] E6. apply val_inj in CA.
      destruct vi as [| |li| | | | |]; try discriminate. destruct vn as [| |ln| | | | |]; try discriminate. cbn [cast_list py_len] in *.
      destruct (cast_ints _ _ E3) as [M3 F3], (cast_ints _ _ E5) as [M5 F5].
      pose proof (column_value lv up' sa ta _ _ RA KI E1) as Q1. pose proof (column_value lv up' sa ta _ _ RA KN E4) as Q2.
      exists []. split; [now rewrite add_lines_nil|].
      match type of CA with flush (wcolumns ?u ?cu ?co ?s5) = _ => destruct (wcolumns_keep u co) with (cur := cu) (st := s5) as [KC OC] end.
      { repeat (constructor; [eexists; reflexivity|]). constructor. }
      cbn zeta in KC, OC. match type of CA with flush ?w = _ => set (wc := w) in * end. clearbody wc. subst tb. split; [exact KC|]. split; [reflexivity|].
      unfold tab_vars in PA. cbn [mapM] in PA. rewrite Q2, Q1 in PA. cbn [bind] in PA. injection PA as <-.
      apply c_int_val in E2 as [-> I2]. pose proof (mapM_length _ _ _ M3) as LI.
      exists (VList ln), (VList li), nbt, int. split; [reflexivity|]. split; [exact M5|]. split; [exact M3|]. rewrite <- LI in *. split; [exact I2|].
      intros ls0 LE WI. apply outs_inj in OC as (OC1 & OC2 & OC3). cbn [flush outs fst snd w_out w_num w_draft]. rewrite OC1, OC2, OC3.
      cbn [flush put_int w_line w_out w_num w_draft] in *.
      assert (NB : nbt <> []) by (intros ->; destruct int; [|discriminate LE]; now apply (ints_nonempty _ _ WI)).
      assert (NP : 0 <= w_num ta).
      { apply outs_inj in OA as (_ & OA & _). rewrite OA, N. unfold st0. cbn [w_num]. lia. }
      rewrite (tab2_body_write o wo c nbt int (w_num ta) ls0 SO CF NP NB LE F5 F3 WI) in E6. injection E6 as <- <-.
      rewrite <- (finished_text o wo c linenum_same ls0 (w_num ta) NP). split; [unfold cpp_write_int_field; now rewrite <- app_assoc|]. split; [reflexivity|]. exact (ints_66 _ _ _ NB LE F5 F3 WI). }
    unfold the_ctrl in H3. rewrite add_lines_nil in H3 |- *. rewrite (wr_ctrl _ _ _ _ _ R) in H3. cbn [bind] in H3. rewrite A1, A2 in H3. cbn [bind cont_of as_num vint] in H3.
    unfold write_tab2 in H3. destruct (negb (Nat.eqb (length nbt) (length int))) eqn:LL; [discriminate|]. apply negb_false_iff, Nat.eqb_eq in LL. rewrite EO in H3. unfold set_N1 in H3. cbn [C1 C2 L1 L2 N1 N2] in H3.
    rewrite LL in H3. pose proof (int_text _ A3) as T4. rewrite (cont_line _ _ _ _ _ _ _ _ _ _ _ _ T0 T1 T2 T3 T4 T5) in H3. cbn [bind] in H3.
    destruct (write_endf_ints wo (interleave nbt int)) as [tbl|] eqn:WI; [|discriminate]. cbn [bind] in H3. injection H3 as <-.
    destruct (A4 tbl LL eq_refl) as (B1 & B2 & B3). cbn [outs fst snd] in B1, B2. set (x4 := rjust 11 (str_of_Z (Z.of_nat (length int)))) in *.
    exists (concat [x0; x1; x2; x3; x4; x5] :: tbl), (concat [x0; x1; x2; x3; x4; x5] :: tbl). split; [reflexivity|]. split; [apply same_alike|]. split; [constructor; [|exact B3]; apply line66; repeat (constructor; [first [apply T0|apply T1|apply T2|apply T3|apply T4|apply T5]|]); constructor|].
    split; [exact (wkeep_trans _ _ _ K K2)|]. rewrite B1, B2, DD, O, N. unfold st0. cbn [w_out w_num tab_text length].
    rewrite slot_put by (first [cbn; lia|repeat (constructor; [first [reflexivity|apply T0|apply T1|apply T2|apply T3|apply T5]|]); constructor]). cbn [replace].
    split; [now rewrite <- !app_assoc|lia].
  Qed.

  Definition tab1_body (up' : list vars) (cur' : vars) (x y : extvar) (s3 : wstate) : cpp wstate :=
      let get x := dict_value (k_loops (w_c s3)) (k_cur (w_c s3)) x [] in
      let* vi := get $"INT" in
      let* nr := py_len vi in
      let* vx := get (fst x) in
      let* np := py_len vx in
      let s4 := flush (put_int 5 np (put_int 4 nr s3)) in
      let* xs := cast_list cast_float vx in
      let* vy := get (fst y) in
      let* ys := cast_list cast_float vy in
      let* int := cast_list cast_int vi in
      let* vn := get $"NBT" in
      let* nbt := cast_list cast_int vn in
      let* (t, n) := cpp_write_tab1_body o preserve c nbt int (map snd xs) (map snd ys) (w_num s4) in
      let s5 := {| w_c := w_c s4; w_out := w_out s4; w_num := n; w_draft := t; w_notes := w_notes s4 ++ reals xs ++ reals ys |} in
      Val (flush (wcolumns up' cur' [(fst x, floats (map snd xs)); (fst y, floats (map snd ys)); ($"INT", ints int); ($"NBT", ints nbt)] s5)).
  Lemma wtab1_grows up' cur' x y st1 st2 : tab1_body up' cur' x y st1 = Val st2 -> wgrows st1 st2.
  Proof.
    unfold tab1_body. cbn zeta. intros H. cbs H as vi E1. cbs H as nr E2. cbs H as vx E7. cbs H as np E8. cbs H as xs E9. cbs H as vy E10. cbs H as ys E11.
    cbs H as int E3. cbs H as vn E4. cbs H as nbt E5. cbs H as [t n] E6. apply val_inj in H. subst st2.
    exists (reals xs ++ reals ys). cbn [flush w_notes]. now rewrite wcolumns_notes.
  Qed.
  Lemma tab1_both up lv cur cur' cs f x y name s st s' st' : wrel c up lv s (w_c st) -> 0 <= w_num st -> reg_instr up lv cur (ITab1 cs f x y name) = Some cur' ->
    do_tab1 en cs f x y name s = (Ok tt, s') -> wtab1 o preserve c up lv cur f x y name st = Val st' -> regular (w_notes st') -> wstep s s' st st'.
  Proof.
    intros R NN RG PY CP RN. unfold do_tab1 in PY. rewrite EW in PY. cbn zeta in PY. apply mbind_ok in PY as ([] & s1 & H1 & PY). apply check_write in H1 as ->.
    apply mbind_ok in PY as (vs & s2 & H2 & PY). apply map_write_ok in H2 as [-> H2]. apply mbind_ok in PY as (tv & s3 & H4 & PY). apply write_ok in PY as (ls & H3 & ->).
    unfold wtab1 in CP. cbs CP as s1 E. unfold fields_reg in CP. cbn [reg_instr] in RG. destruct (reg_fields up lv cur (head_fields f)) as [c1|] eqn:RF; [|discriminate].
    destruct (tab_columns x y) as [cols|] eqn:TC; [|discriminate]. apply tab_columns_inv in TC as (SX & SY & -> & _).
    destruct (vars_in up c1 name) as [up' cur1] eqn:VI. 
    change (in_wnamed name (tab1_body up' cur1 x y) s1 = Val st') in CP.
    pose proof (wtab1_grows up' cur1 x y) as GB.
    assert (RN1 : regular (w_notes s1)) by (eapply wgrows_forall; [eapply in_wnamed_grows; [exact GB|exact CP]|exact RN]).
    rewrite prepare_draft in E. match type of E with wfields _ _ _ _ _ _ ?x = _ => set (st0 := x) in * end.
    destruct (wfields_both up lv s _ _ _ _ (R : wrel c up lv s (w_c st0)) E RN1) as (rs & F & K & O & N & D).
    unfold head_fields in F.
    apply forall2_cons_inv in F as ([n0 x0] & m0 & -> & (V0 & T0) & F). apply forall2_cons_inv in F as ([n1 x1] & m1 & -> & (V1 & T1) & F).
    apply forall2_cons_inv in F as ([n2 x2] & m2 & -> & (V2 & T2) & F). apply forall2_cons_inv in F as ([n3 x3] & m3 & -> & (V3 & T3) & F).
    apply forall2_nil_inv in F as ->. cbn [fst snd] in *. unfold value_of in *.
    cbn [mapM] in H2. rewrite V0, V1, V2, V3 in H2. cbn [bind] in H2. injection H2 as <-.
    assert (DD : w_draft s1 = concat [x0; x1; x2; x3; spaces 11; spaces 11] ++ tl o c (w_num st)).
    { rewrite D. unfold st0. cbn [w_draft]. cbn [head_fields combine map fst snd].
      rewrite put_slots; [reflexivity|apply six_len|]. repeat (constructor; [cbn; split; [lia|first [apply T0|apply T1|apply T2|apply T3]]|]). constructor. }
    assert (R1 : wrel c up lv s (w_c s1)) by (rewrite <- (add_lines_nil s); eapply wrel_keep; [exact K|exact R]).
    set (P := fun (ls : list str) (a b : str * Z * str) => ls = [] /\ exists vn vi vx vy nbt int xs ys, tv = [vn; vi; vx; vy] /\ as_Zs vn = Ok nbt /\ as_Zs vi = Ok int /\
      as_nums vx = Ok xs /\ as_nums vy = Ok ys /\ int32 (Z.of_nat (length int)) /\ int32 (Z.of_nat (length xs)) /\
      forall ls, length nbt = length int -> write_tab1_body_lines wo nbt int xs ys = Ok ls ->
        fst (fst b) = fst (fst a) ++ c_replace (c_replace (snd a) (4 * 11) 11 (rjust 11 (str_of_Z (Z.of_nat (length int))))) (5 * 11) 11 (rjust 11 (str_of_Z (Z.of_nat (length xs)))) ++ tab_text o c (snd (fst a)) ls /\
        snd (fst b) = snd (fst a) + Z.of_nat (length ls) /\ Forall (fun l : str => length l = 66%nat) ls).
    destruct (named_both (map_write en (tab_vars ++ [ev x; ev y])) (tab1_body up' cur1 x y) P name _ up lv c1 cur' s s1 tv s3 st' R1 RG GB H4 CP RN)
      as (l0 & -> & K2 & -> & vn & vi & vx & vy & nbt & int & xs & ys & -> & A1 & A2 & A5 & A6 & A3 & A7 & A4).
    { rewrite VI. cbn [fst snd]. intros sa ta sb tb [w W] RA OA PA CA RB. apply map_write_ok in PA as [-> PA].
      apply reg_columns_adds in W as [_ W]. destruct (W $"INT") as [KI _]; [cbn; auto|]. destruct (W $"NBT") as [KN _]; [cbn; auto|].
      destruct (W (fst x)) as [KX _]; [cbn; auto|]. destruct (W (fst y)) as [KY _]; [cbn; auto|].
      unfold tab1_body in CA. cbn zeta in CA. cbs CA as vi E1. cbs CA as nr E2. cbs CA as vx E7. cbs CA as np E8. cbs CA as xs E9. cbs CA as vy E10. cbs CA as ys E11.
      cbs CA as int E3. cbs CA as vn E4. cbs CA as nbt E5. cbs CA as [t n] E6. apply val_inj in CA.
      destruct vi as [| |li| | | | |]; try discriminate. destruct vn as [| |ln| | | | |]; try discriminate.
      destruct vx as [| |lx| | | | |]; try discriminate. destruct vy as [| |ly| | | | |]; try discriminate. cbn [cast_list py_len] in *.
      destruct (cast_ints _ _ E3) as [M3 F3], (cast_ints _ _ E5) as [M5 F5]. pose proof (cast_floats _ _ E9) as M9. pose proof (cast_floats _ _ E11) as M11.
      pose proof (column_value lv up' sa ta _ _ RA KI E1) as Q1. pose proof (column_value lv up' sa ta _ _ RA KN E4) as Q2.
      pose proof (column_value lv up' sa ta _ _ RA KX E7) as Q3. pose proof (column_value lv up' sa ta _ _ RA KY E10) as Q4.
      exists []. split; [now rewrite add_lines_nil|].
      match type of CA with flush (wcolumns ?u ?cu ?co ?s5) = _ => destruct (wcolumns_keep u co) with (cur := cu) (st := s5) as [KC OC]; [|pose proof (wcolumns_notes u co cu s5) as NC] end.
      { repeat (constructor; [eexists; reflexivity|]). constructor. }
      cbn zeta in KC, OC. match type of CA with flush ?w = _ => set (wc := w) in * end. clearbody wc. subst tb. split; [exact KC|]. split; [reflexivity|].
      cbn [flush w_notes] in RB, NC. rewrite NC in RB. apply Forall_app in RB as [_ RB]. apply Forall_app in RB as [RX RY]. apply reals_same in RX, RY.
      unfold tab_vars, ev in PA. rewrite SX, SY in PA. cbn [app mapM] in PA. rewrite Q2, Q1, Q3, Q4 in PA. cbn [bind] in PA. injection PA as <-.
      apply c_int_val in E2 as [-> I2]. pose proof (mapM_length _ _ _ M3) as LI. apply c_int_val in E8 as [-> I8]. pose proof (mapM_length _ _ _ M9) as LX.
      exists (VList ln), (VList li), (VList lx), (VList ly), nbt, int, (map fst xs), (map fst ys). split; [reflexivity|]. split; [exact M5|]. split; [exact M3|]. split; [exact M9|]. split; [exact M11|].
      rewrite <- LI, <- LX in *. split; [exact I2|]. split; [exact I8|].
      intros ls0 LE WI. apply outs_inj in OC as (OC1 & OC2 & OC3). cbn [flush outs fst snd w_out w_num w_draft]. rewrite OC1, OC2, OC3.
      cbn [flush put_int w_line w_out w_num w_draft] in *.
      assert (WN := WI). unfold write_tab1_body_lines in WN. destruct (negb _); [discriminate|]. destruct (negb _) eqn:LY; [discriminate|]. apply negb_false_iff, Nat.eqb_eq in LY.
      destruct (write_endf_ints wo (interleave nbt int)) as [l1|] eqn:W1; [|discriminate]. cbn [bind] in WN. destruct (write_endf_floats wo _) as [l2|] eqn:W2; [|discriminate].
      assert (NB : nbt <> []) by (intros ->; destruct int; [|discriminate LE]; now apply (ints_nonempty _ _ W1)).
      assert (NX : map fst xs <> []) by (intros X0; rewrite X0 in LY, W2; destruct (map fst ys); [|discriminate LY]; now apply (floats_nonempty _ _ W2)).
      assert (NP : 0 <= w_num ta).
      { apply outs_inj in OA as (_ & OA & _). rewrite OA, N. unfold st0. cbn [w_num]. lia. }
      rewrite (tab1_body_write o preserve wo c nbt int _ _ _ _ (w_num ta) ls0 SO CF NP NB NX F5 F3 RX RY WI) in E6. injection E6 as <- <-.
      rewrite <- (finished_text o wo c linenum_same ls0 (w_num ta) NP). split; [unfold cpp_write_int_field; now rewrite <- app_assoc|]. split; [reflexivity|].
      cbn [bind] in WN. injection WN as <-. apply Forall_app. split; [exact (ints_66 _ _ _ NB LE F5 F3 W1)|exact (reals_66 _ _ _ _ _ NX LY RX RY W2)]. }
    unfold the_ctrl in H3. rewrite add_lines_nil in H3 |- *. rewrite (wr_ctrl _ _ _ _ _ R) in H3. cbn [bind] in H3. rewrite A1, A2, A5, A6 in H3. cbn [bind app cont_of as_num vint] in H3.
    unfold write_tab1 in H3. rewrite EO in H3. unfold set_N1, set_N2 in H3. cbn [C1 C2 L1 L2 N1 N2] in H3.
    destruct (write_tab1_body_lines wo nbt int xs ys) as [tbl|] eqn:WI; [|destruct (write_cont _ _ _); discriminate].
    assert (LL : length nbt = length int).
    { unfold write_tab1_body_lines in WI. destruct (negb (Nat.eqb (length nbt) (length int))) eqn:LL; [discriminate|]. now apply negb_false_iff, Nat.eqb_eq in LL. }
    rewrite LL in H3. pose proof (int_text _ A3) as T4. pose proof (int_text _ A7) as T5. rewrite (cont_line _ _ _ _ _ _ _ _ _ _ _ _ T0 T1 T2 T3 T4 T5) in H3. cbn [bind] in H3.
    injection H3 as <-.
    destruct (A4 tbl LL eq_refl) as (B1 & B2 & B3). cbn [outs fst snd] in B1, B2. set (x4 := rjust 11 (str_of_Z (Z.of_nat (length int)))) in *. set (x5 := rjust 11 (str_of_Z (Z.of_nat (length xs)))) in *.
    exists (concat [x0; x1; x2; x3; x4; x5] :: tbl), (concat [x0; x1; x2; x3; x4; x5] :: tbl). split; [reflexivity|]. split; [apply same_alike|]. split; [constructor; [|exact B3]; apply line66; repeat (constructor; [first [apply T0|apply T1|apply T2|apply T3|apply T4|apply T5]|]); constructor|].
    split; [exact (wkeep_trans _ _ _ K K2)|]. rewrite B1, B2, DD, O, N. unfold st0. cbn [w_out w_num tab_text length].
    do 2 (rewrite slot_put by (first [cbn; lia|repeat (constructor; [first [reflexivity|apply T0|apply T1|apply T2|apply T3|apply T4]|]); constructor]); cbn [replace]).
    split; [now rewrite <- !app_assoc|lia].
  Qed.

  (** ** Loops *)

  Lemma regular_told l : regular l -> Forall told l.
  Proof. intros H. eapply Forall_impl; [|exact H]. intros [x|x|v e|k q| | |x]; cbn; auto. Qed.
  Lemma stop_value up lv cur s k e z v s1 : wrel c up lv s k -> regular (asked up lv cur k e) -> int_expr up lv cur e = true -> ceval up lv cur k e = Val z ->
    eval_ctl en e s = (Ok v, s1) -> v = vint z /\ s1 = s.
  Proof.
    intros R RN IE CE EV. unfold eval_ctl, eval_known in EV.
    pose proof (weval_both up lv cur s k (wr_cur _ _ _ _ _ R) (wr_inv _ _ _ _ _ R) (wr_up _ _ _ _ _ R) (wr_loops _ _ _ _ _ R) (wr_lv _ _ _ _ _ R) (e_depth en) e z (regular_told _ RN) IE CE) as O.
    unfold outcome in O. destruct (eval_expr (e_depth en) (scope_of s) true true false e) as [t|er]; [subst t|discriminate EV].
    cbn [bind] in EV. injection EV as <- <-. auto.
  Qed.
  Lemma rel_in up lv v i s k : 0 <= i -> wrel c up lv s k -> wrel c up (v :: lv) (set_loops ((v, i) :: ps_loops s) s) (with_loops ((v, i) :: k_loops k) k).
  Proof.
    intros I R. split; cbn [set_loops with_loops ps_dic k_cur ps_up k_up ps_loops k_loops ps_look]; try apply R.
    - now rewrite (wr_loops _ _ _ _ _ R).
    - destruct (wr_lv _ _ _ _ _ R) as [A B]. split; [cbn [map fst]; congruence|]. constructor; assumption.
  Qed.
  Lemma keep_out v i k k2 : wkeep (with_loops ((v, i) :: k_loops k) k) k2 -> wkeep k (with_loops (List.tl (k_loops k2)) k2).
  Proof. intros [A1 A2 A3 A4]. cbn [with_loops k_up k_loops k_cur] in *. split; cbn [with_loops k_up k_loops k_cur]; auto. now rewrite A2. Qed.

  (** ** Lists *)

  Lemma zero_flt : exists z, float2fortstr wo (NFlt (S754_zero false)) = Ok z /\ length z = 11%nat.
  Proof.
    pose proof width11 as W. destruct wo as [a b d e g w f lm]. cbn [w_width] in W. subst w.
    destruct a, b, d, e; eexists; split; vm_compute; reflexivity.
  Qed.

  Section Lists.
    Variables (npl : Z) (out0 : str) (num0 : Z).
    Definition layout (ts : list str) (l : wlrun) : Prop :=
      exists fulls dn, ts = concat fulls ++ dn /\ Forall (fun r : list str => length r = 6%nat) fulls /\ length dn = wl_j l /\ (wl_j l <= 6)%nat /\
        (wl_j l = 6%nat -> npl <= wl_i l) /\ (wl_j l = 0%nat -> wl_i l < npl \/ fulls = []) /\
        w_out (wl_st l) = out0 ++ tab_text o c num0 (map (@concat ascii) fulls) /\ w_num (wl_st l) = num0 + Z.of_nat (length fulls) + 1 /\
        w_draft (wl_st l) = concat dn ++ spaces (66 - 11 * wl_j l) ++ tl o c (num0 + Z.of_nat (length fulls)).
    Definition texts (vals : list num) (ts : list str) : Prop := Forall2 (fun n t => float2fortstr wo n = Ok t /\ length t = 11%nat) vals ts.
    Definition linv (vals : list num) (l : wlrun) : Prop :=
      exists ts, texts vals ts /\ wl_i l = Z.of_nat (length ts) /\ (wl_i l <= npl -> layout ts l).
    Lemma texts_widths vals ts : texts vals ts -> widths 11 ts.
    Proof. induction 1 as [|v q vs ts [_ T] X IH]; constructor; auto. Qed.

    Lemma lexpr_both up lv cur e s l vals pos vals' pos' s' l' : wrel c up lv s (w_c (wl_st l)) -> list_expr en e (vals, pos) s = (Ok (vals', pos'), s') ->
      wlist_expr o preserve c npl up lv cur e l = Val l' -> regular (w_notes (wl_st l')) -> linv vals l ->
      s' = s /\ wkeep (w_c (wl_st l)) (w_c (wl_st l')) /\ linv vals' l'.
    Proof.
      intros R PY CP RN (ts & TX & LI & LY). unfold list_expr in PY. rewrite EW in PY. apply mbind_ok in PY as (vs & s1 & H1 & PY). apply map_write_ok in H1 as [-> H1].
      unfold wlist_expr in CP. cbs CP as st1 E.
      assert (RN1 : regular (w_notes st1)) by (destruct (_ && _) in CP; injection CP as <-; exact RN).
      destruct (wfield_both up lv TFloat cur e (wl_j l) s (wl_st l) st1 R E RN1) as (n & x & EV & [LX TF] & K & (P1 & P2 & P3)).
      unfold value_of in EV. cbn [mapM] in H1. rewrite EV in H1. cbn [bind] in H1. injection H1 as <-.
      apply mbind_ok in PY as (n' & s2 & H2 & PY). injection H2 as <- <-. injection PY as <- <- <-.
      split; [reflexivity|]. split; [destruct (_ && _) in CP; injection CP as <-; exact K|].
      exists (ts ++ [x]). split; [apply Forall2_app; [exact TX|constructor; [auto|constructor]]|].
      assert (WI : wl_i l' = Z.of_nat (length (ts ++ [x]))).
      { rewrite app_length. cbn [length]. destruct (_ && _) in CP; injection CP as <-; cbn [wl_i]; lia. }
      split; [exact WI|]. intros LE.
      assert (WI' : wl_i l' = wl_i l + 1) by (rewrite WI, LI, app_length; cbn [length]; lia).
      destruct LY as (fulls & dn & -> & FF & LD & J6 & J6' & J0 & O & N & D); [lia|].
      assert (J5 : (wl_j l <= 5)%nat) by (destruct (Nat.eq_dec (wl_j l) 6) as [J|J]; [specialize (J6' J); lia|lia]).
      assert (WD : widths 11 dn).
      { apply texts_widths in TX. unfold widths in *. now apply Forall_app in TX as [_ TX]. }
      assert (LC : length (concat dn) = (11 * wl_j l)%nat) by (rewrite (length_concat_widths 11 dn WD), LD; lia).
      assert (ND : w_draft st1 = concat (dn ++ [x]) ++ spaces (66 - 11 * S (wl_j l)) ++ tl o c (num0 + Z.of_nat (length fulls))).
      { rewrite P3, D. replace (66 - 11 * wl_j l)%nat with (11 + (66 - 11 * S (wl_j l)))%nat by lia. rewrite spaces_app, <- app_assoc.
        rewrite (c_replace_at (concat dn) (spaces 11)) by (first [reflexivity|lia]). rewrite concat_app. cbn [concat]. now rewrite app_nil_r, <- app_assoc. }
      destruct ((5 <? S (wl_j l))%nat && (wl_i l + 1 <? npl)) eqn:B; injection CP as <-; cbn [wl_i wl_j wl_st] in *.
      - apply andb_true_iff in B as [B1 B2]. apply Nat.ltb_lt in B1. apply Z.ltb_lt in B2. assert (J : wl_j l = 5%nat) by lia.
        exists (fulls ++ [dn ++ [x]]), []. rewrite concat_app. cbn [concat]. rewrite !app_nil_r, <- app_assoc. split; [reflexivity|].
        split; [apply Forall_app; split; [exact FF|]; constructor; [rewrite app_length; cbn [length]; lia|constructor]|].
        split; [reflexivity|]. split; [cbn [wl_j]; lia|]. split; [discriminate|]. split; [left; cbn [wl_i]; lia|].
        cbn [wl_st]. rewrite prepare_draft. cbn [flush w_out w_num w_draft]. rewrite P1, P2, O, N, ND, map_app, tab_text_app, map_length, app_length. cbn [map tab_text length].
        rewrite J. cbn [Nat.sub Nat.mul Nat.add]. split; [cbn [spaces repeat app]; now rewrite app_nil_r, <- !app_assoc|]. split; [lia|].
        replace (num0 + Z.of_nat (length fulls + 1)) with (num0 + Z.of_nat (length fulls) + 1) by lia. reflexivity.
      - exists fulls, (dn ++ [x]). cbn [wl_i wl_j wl_st]. split; [now rewrite app_assoc|]. split; [exact FF|]. split; [rewrite app_length; cbn [length]; lia|]. split; [lia|].
        split; [|split; [discriminate|]].
        + intros J. rewrite J in B. cbn [Nat.ltb Nat.leb andb] in B. apply Z.ltb_ge in B. lia.
        + split; [congruence|]. split; [congruence|exact ND].
    Qed.

    Definition lstep (pb : LM) (cb : wlrun -> cpp wlrun) (up : list vars) (lv : list str) : Prop :=
      forall s l ls ls' s' l', wrel c up lv s (w_c (wl_st l)) -> pb ls s = (Ok ls', s') -> cb l = Val l' -> regular (w_notes (wl_st l')) -> linv (fst ls) l ->
        s' = s /\ wkeep (w_c (wl_st l)) (w_c (wl_st l')) /\ linv (fst ls') l'.
    Lemma lturns_both v (pb : LM) stop cb b up lv : (forall l l', cb l = Val l' -> wgrows (wl_st l) (wl_st l')) -> lstep pb cb up (v :: lv) ->
      forall is_ L s l ls ls' s' l', Forall (fun i => 0 <= i) is_ -> ldel v (ps_loops s) = L -> wrel c up lv (set_loops L s) (w_c (wl_st l)) ->
        iterate_l v is_ pb ls s = (Ok ls', s') -> turns v stop wl_loops (fun l => k_loops (w_c (wl_st l))) cb b is_ l = Val l' -> regular (w_notes (wl_st l')) -> linv (fst ls) l ->
        set_loops L s' = set_loops L s /\ ldel v (ps_loops s') = L /\ wkeep (w_c (wl_st l)) (w_c (wl_st l')) /\ linv (fst ls') l'.
    Proof.
      intros GR BODY. induction is_ as [|i r IH]; intros L s l ls ls' s' l' PI LD R IT TU RN LI; cbn [iterate_l turns] in IT, TU.
      - injection IT as <- <-. cbs TU as b' EB. destruct (b' =? b); [|discriminate]. injection TU as <-. repeat split; auto.
      - apply mbind_ok in IT as ([] & s1 & H1 & IT). injection H1 as <-. apply mbind_ok in IT as (ls2 & s2 & H2 & IT).
        cbs TU as b' EB. destruct (b' =? b); [|discriminate]. cbs TU as l2 E2. inversion PI as [|? ? P0 PR]; subst.
        pose proof (rel_in up lv v i _ _ P0 R) as R1. cbn [set_loops ps_loops] in R1.
        assert (RN2 : regular (w_notes (wl_st l2))).
        { eapply wgrows_forall; [|exact RN]. apply (wturns_grows wl_st) in TU; [|reflexivity|exact GR]. eapply wgrows_trans; [|exact TU]. now apply wgrows_same. }
        destruct (BODY (set_loops ((v, i) :: ldel v (ps_loops s)) s) (wl_loops ((v, i) :: k_loops (w_c (wl_st l))) l) ls ls2 s2 l2 R1 H2 E2 RN2 LI) as (-> & K2 & LI2).
        apply keep_out in K2. 
        assert (LD2 : ldel v (ps_loops (set_loops ((v, i) :: ldel v (ps_loops s)) s)) = ldel v (ps_loops s)) by (cbn [set_loops ps_loops]; apply ldel_head).
        assert (R3 : wrel c up lv (set_loops (ldel v (ps_loops s)) (set_loops ((v, i) :: ldel v (ps_loops s)) s)) (w_c (wl_st (wl_loops (List.tl (k_loops (w_c (wl_st l2)))) l2)))).
        { rewrite <- (add_lines_nil (set_loops _ _)). eapply wrel_keep; [exact K2|]. exact R. }
        destruct (IH _ _ _ _ _ _ _ PR LD2 R3 IT TU RN LI2) as (Q1 & Q2 & Q3 & Q4).
        split; [exact Q1|]. split; [exact Q2|]. split; [exact (wkeep_trans _ _ _ K2 Q3)|exact Q4].
    Qed.
    Lemma lfor_both v a b (pb : LM) cb up lv cur : (forall l l', cb l = Val l' -> wgrows (wl_st l) (wl_st l')) -> lstep pb cb up (v :: lv) -> loop_ok up lv cur v a b = true ->
      lstep (cycle_list_loop en v a b pb) (fun l => for_loop v a (fun l => ceval up lv cur (w_c (wl_st l)) b) wl_loops (fun l => k_loops (w_c (wl_st l))) cb (wl_note (asked up lv cur (w_c (wl_st l)) b) l)) up lv.
    Proof.
      intros GR BODY LK s l ls ls' s' l' R CY FL RN LI.
      unfold loop_ok in LK. apply andb_true_iff in LK as [LK IE]. apply andb_true_iff in LK as [LK ST]. apply andb_true_iff in LK as [KV _].
      apply negb_true_iff in KV. destruct a as [|?|dz n| | | | | |]; try discriminate ST. destruct n as [a0| |]; try discriminate ST. apply Z.leb_le in ST.
      unfold for_loop in FL. cbs FL as b0 EB. cbs FL as u EU.
      assert (RA : regular (asked up lv cur (w_c (wl_st l)) b)).
      { assert (G := FL). apply (wturns_grows wl_st) in G; [|reflexivity|exact GR]. eapply wgrows_forall in G; [|exact RN]. cbn [wl_note wl_st w_note w_notes] in G. now apply Forall_app in G as [_ G]. }
      unfold cycle_list_loop in CY. apply mbind_ok in CY as (va & s1 & H1 & CY). apply mbind_ok in CY as (vb & s2 & H2 & CY).
      assert (va = vint a0 /\ s1 = s) as [-> ->].
      { unfold eval_ctl, eval_known in H1. rewrite eval_expr_eq in H1. cbn [bind] in H1. injection H1 as <- <-. auto. }
      destruct (stop_value up lv cur s _ b b0 vb s2 R RA IE EB H2) as [-> ->].
      apply mbind_ok in CY as (za & s3 & H3 & CY). injection H3 as <- <-. apply mbind_ok in CY as (zb & s4 & H4 & CY). injection H4 as <- <-.
      destruct (lget v (ps_loops s)) eqn:LG; [discriminate|]. apply mbind_ok in CY as (r & s5 & IT & CY). apply mbind_ok in CY as ([] & s6 & H6 & CY). injection CY as <- <-.
      assert (LS : set_loops (ps_loops s) s = s) by now destruct s.
      assert (RG : Forall (fun i => 0 <= i) (zrange a0 b0)).
      { apply Forall_forall. intros i I. apply zrange_in in I. lia. }
      assert (P1 : wrel c up lv (set_loops (ps_loops s) s) (w_c (wl_st l))) by now rewrite LS.
      destruct (lturns_both v pb _ cb b0 up lv GR BODY _ _ _ (wl_note (asked up lv cur (w_c (wl_st l)) b) l) _ _ _ _ RG (ldel_none _ _ LG) P1 IT FL RN LI) as (Q1 & Q2 & Q3 & Q4).
      split; [|split; [exact Q3|exact Q4]]. rewrite LS in Q1. destruct (a0 <=? b0) eqn:LE.
      - injection H6 as <-. now rewrite Q2.
      - injection H6 as <-. apply Z.leb_gt in LE. rewrite zrange_empty in IT by lia. injection IT as <- <-. reflexivity.
    Qed.

    Lemma litem_loop_eq up lv cur v a b body l : wlist_item o preserve c npl up lv cur (LLoop v a b body) l =
      for_loop v a (fun l => ceval up lv cur (w_c (wl_st l)) b) wl_loops (fun l => k_loops (w_c (wl_st l))) (wlist_body o preserve c npl up (v :: lv) cur body) (wl_note (asked up lv cur (w_c (wl_st l)) b) l).
    Proof. reflexivity. Qed.
    Lemma lbody_cons_eq up lv cur i r l : wlist_body o preserve c npl up lv cur (LCons i r) l =
      let* l' := wlist_item o preserve c npl up lv cur i l in match reg_litem up lv cur i with Some cur' => wlist_body o preserve c npl up lv cur' r l' | None => Undefined end.
    Proof. reflexivity. Qed.
    Lemma list_both_all :
      (forall i up lv cur cur', reg_litem up lv cur i = Some cur' -> lstep (list_item en i) (wlist_item o preserve c npl up lv cur i) up lv) /\
      (forall b up lv cur cur', reg_lbody up lv cur b = Some cur' -> lstep (list_body en b) (wlist_body o preserve c npl up lv cur b) up lv).
    Proof.
      apply lrecipe_mut; cbn [reg_litem reg_lbody]; try discriminate.
      - intros e up lv cur cur' RG s l [vals pos] [vals' pos'] s' l' R PY CP RN LI. cbn [fst] in *. exact (lexpr_both up lv cur e s l vals pos vals' pos' s' l' R PY CP RN LI).
      - intros v a b body IH up lv cur cur' RG. destruct (loop_ok up lv cur v a b) eqn:LK; [|discriminate].
        intros s l ls ls' s' l' R PY CP RN LI. rewrite litem_loop_eq in CP.
        apply (lfor_both v a b (list_body en body) (wlist_body o preserve c npl up (v :: lv) cur body) up lv cur) with (ls := ls); auto.
        + intros p q Q. apply (proj2 (wlist_grows o preserve c npl)) in Q. exact Q.
        + exact (IH _ _ _ _ RG).
      - intros up lv cur cur' RG s l ls ls' s' l' R PY CP RN LI. injection PY as <- <-. injection CP as <-. split; [reflexivity|]. split; [apply wkeep_refl|exact LI].
      - intros i IHi r IHr up lv cur cur' RG s l ls ls' s' l' R PY CP RN LI. destruct (reg_litem up lv cur i) as [c1|] eqn:RI; [|discriminate].
        cbn [list_body] in PY. apply mbind_ok in PY as (ls1 & s1 & H1 & PY). rewrite lbody_cons_eq in CP. cbs CP as l1 E1. rewrite RI in CP.
        assert (RN1 : regular (w_notes (wl_st l1))) by (eapply wgrows_forall; [eapply (proj2 (wlist_grows o preserve c npl)); exact CP|exact RN]).
        destruct (IHi _ _ _ _ RI _ _ _ _ _ _ R H1 E1 RN1 LI) as (-> & K1 & LI1).
        assert (R1 : wrel c up lv s (w_c (wl_st l1))) by (rewrite <- (add_lines_nil s); eapply wrel_keep; eauto).
        destruct (IHr _ _ _ _ RG _ _ _ _ _ _ R1 PY CP RN LI1) as (-> & K2 & LI2). split; [reflexivity|]. split; [exact (wkeep_trans _ _ _ K1 K2)|exact LI2].
    Qed.
  End Lists.

  Lemma array_fulls dn : dn <> [] -> (length dn <= 6)%nat -> forall fulls, Forall (fun r : list str => length r = 6%nat) fulls -> widths 11 (concat fulls) ->
    array_lines 11 (concat fulls ++ dn) = map (@concat ascii) fulls ++ [ljust 66 (concat dn)].
  Proof.
    intros ND LD. induction fulls as [|r fs IH]; intros FF WW; unfold array_lines.
    - cbn [concat app map]. now rewrite chunks6_small.
    - inversion FF as [|? ? L6 FR]; subst. cbn [concat] in WW |- *. unfold widths in WW. apply Forall_app in WW as [W1 W2]. rewrite <- app_assoc, chunks6_app by exact L6. cbn [map app].
      f_equal; [apply ljust_id; rewrite (length_concat_widths 11) by exact W1; lia|]. apply IH; assumption.
  Qed.
  Lemma concat_fulls (fulls : list (list str)) : Forall (fun r : list str => length r = 6%nat) fulls -> length (concat fulls) = (6 * length fulls)%nat.
  Proof. induction 1 as [|r fs L F IH]; [reflexivity|]. cbn [concat length]. rewrite app_length, L, IH. lia. Qed.

  (** a list ends with a line that may be short *)
  Definition list_done (vals : list num) (a b : str * Z * str) : Prop :=
    exists ts fulls dn, texts vals ts /\ ts = concat fulls ++ dn /\ Forall (fun r : list str => length r = 6%nat) fulls /\ dn <> [] /\ (length dn <= 6)%nat /\
      (length dn = 6%nat \/ whole = false) /\
      fst (fst b) = fst (fst a) ++ tab_text o c (snd (fst a)) (map (@concat ascii) fulls ++ [concat dn ++ spaces (66 - 11 * length dn)]) /\
      snd (fst b) = snd (fst a) + Z.of_nat (length fulls) + 1.
  Lemma wlist_both npl up lv cur cur' body s st ls' s' st' : wrel c up lv s (w_c st) -> reg_lbody up lv cur body = Some cur' ->
    list_body en body ([], O) s = (Ok ls', s') -> wlist o preserve c npl up lv cur body st = Val st' -> regular (w_notes st') ->
    s' = s /\ wkeep (w_c st) (w_c st') /\ list_done (fst ls') (outs st) (outs st').
  Proof.
    intros R RG PY CP RN. unfold wlist in CP. cbs CP as l E. destruct (wl_i l =? npl) eqn:EN; [|discriminate]. apply Z.eqb_eq in EN. apply val_inj in CP.
    assert (NN : regular (list_notes npl) /\ regular (w_notes (wl_st l))).
    { subst st'. cbn [w_note w_notes flush] in RN. now apply Forall_app in RN as [? ?]. }
    destruct NN as [NN RN1].
    match type of E with wlist_body _ _ _ _ _ _ _ _ ?x = _ => set (l0 := x) in * end.
    assert (L0 : linv npl (w_out st) (w_num st) [] l0).
    { exists []. split; [constructor|]. split; [reflexivity|]. intros _. exists [], []. unfold l0. cbn [wl_i wl_j wl_st]. rewrite prepare_draft. cbn [w_out w_num w_draft map concat length tab_text].
      split; [reflexivity|]. split; [constructor|]. split; [reflexivity|]. split; [lia|]. split; [discriminate|]. split; [now right|]. split; [now rewrite app_nil_r|]. split; [lia|].
      rewrite Z.add_0_r. reflexivity. }
    assert (R0 : wrel c up lv s (w_c (wl_st l0))) by (unfold l0; cbn [wl_st]; rewrite prepare_draft; exact R).
    destruct (proj2 (list_both_all npl (w_out st) (w_num st)) body up lv cur cur' RG s l0 ([], O) ls' s' l R0 PY E RN1 L0) as (-> & K & ts & TX & LI & LY).
    split; [reflexivity|]. destruct LY as (fulls & dn & -> & FF & LD & J6 & J6' & J0 & O & N & D); [lia|].
    unfold list_notes in NN. apply Forall_app in NN as [N1 N2].
    assert (NZ : npl <> 0) by (destruct (npl =? 0) eqn:Z0; [now apply Forall_inv in N1|now apply Z.eqb_neq]).
    rewrite app_length, (concat_fulls _ FF) in LI.
    assert (ND : dn <> []).
    { intros ->. cbn [length] in LD, LI. destruct J0 as [J|J]; [now rewrite <- LD|lia|]. subst fulls. cbn [length] in LI. lia. }
    subst st'. split.
    - replace (w_c st) with (w_c (wl_st l0)) by (unfold l0; cbn [wl_st]; now rewrite prepare_draft). exact K.
    - exists (concat fulls ++ dn), fulls, dn. split; [exact TX|]. split; [reflexivity|]. split; [exact FF|]. split; [exact ND|]. split; [lia|].
      cbn [outs w_note flush w_out w_num w_draft fst snd]. rewrite O, N, D, <- LD. split; [|split; [|lia]].
      + destruct (Nat.eq_dec (length dn) 6) as [L6|L6]; [now left|right]. destruct (Z.rem npl 6 =? 0) eqn:Z6; [|now apply Forall_inv in N2].
        exfalso. apply Z.eqb_eq in Z6. rewrite <- EN, LI in Z6. rewrite Z.rem_mod_nonneg in Z6 by lia.
        assert (length dn <> 0%nat) by (destruct dn; [contradiction|discriminate]).
        replace (Z.of_nat (6 * length fulls + length dn)) with (Z.of_nat (length dn) + Z.of_nat (length fulls) * 6) in Z6 by lia. rewrite Z_mod_plus_full in Z6.
        rewrite Z.mod_small in Z6; lia.
      + rewrite tab_text_app, map_length. cbn [tab_text]. rewrite app_nil_r, <- !app_assoc. reflexivity.
  Qed.

  Lemma field_var_ok up lv t cur e c' x ix : reg_field up lv t cur e = Some c' -> e = EVar x ix \/ e = EIncons x ix -> known x lv = false /\ exists b, indices_ok lv ix = Some b.
  Proof.
    intros RF EX. unfold reg_field in RF. assert (PV : plan_of up lv cur t e = plan_var up lv cur t x ix) by (destruct EX as [-> | ->]; reflexivity). rewrite PV in RF.
    unfold plan_var in RF. destruct (known x lv); [discriminate|]. destruct (indices_ok lv ix) as [b|]; [|discriminate]. eauto.
  Qed.
  Lemma npl_known up lv t cur e c' s k n n1 : wrel c up lv s (w_c k) -> reg_field up lv t cur e = Some c' -> value_of s e n -> npl_value e k = Val n1 -> n = NInt n1 /\ int32 n1.
  Proof.
    intros R RF VO NV. unfold value_of in VO.
    assert (VAR : forall x ix, e = EVar x ix \/ e = EIncons x ix -> (let* v := dict_value (k_loops (w_c k)) (k_cur (w_c k)) x ix in cast_int v) = Val n1 -> n = NInt n1 /\ int32 n1).
    { intros x ix EX Q. destruct (field_var_ok _ _ _ _ _ _ _ _ RF EX) as [KN IX]. cbs Q as v EV.
      destruct v as [[y| |]| | | | | | |]; try discriminate. cbn [cast_int] in Q. destruct ((_ <=? y) && (y <? _)) eqn:B; [|discriminate]. injection Q as ->.
      apply andb_true_iff in B as [B1 B2]. apply Z.leb_le in B1. apply Z.ltb_lt in B2. split; [|unfold int32; lia].
      assert (GR : get_raw (scope_of s) false x ix = Ok (VNum (NInt n1))).
      { apply (dict_value_raw lv s (k_cur (w_c k))); auto; try apply R. rewrite <- (wr_loops _ _ _ _ _ R). exact EV. }
      destruct EX as [-> | ->]; [apply raw_known in GR|apply incons_known in GR]; rewrite GR in VO; congruence. }
    destruct e; cbn [npl_value] in NV; try discriminate.
    - eapply VAR; eauto.
    - eapply VAR; eauto.
    - destruct v as [z| |]; try discriminate. apply c_int_val in NV as [-> I]. unfold eval_known in VO. rewrite eval_expr_eq in VO. cbn [bind] in VO. split; [congruence|exact I].
  Qed.

  Lemma list_rec_both up lv cur cur' cs f body name s st s' st' : wrel c up lv s (w_c st) -> 0 <= w_num st -> reg_instr up lv cur (IList cs f body name) = Some cur' ->
    do_list en cs f body name s = (Ok tt, s') -> wlistrec o preserve c up lv cur f body name st = Val st' -> regular (w_notes st') -> wstep s s' st st'.
  Proof.
    intros R NN RG PY CP RN. unfold do_list in PY. rewrite EW in PY. apply mbind_ok in PY as ([] & s1 & H1 & PY). apply check_write in H1 as ->.
    apply mbind_ok in PY as (vs & s2 & H2 & PY). apply map_write_ok in H2 as [-> H2]. apply mbind_ok in PY as ([vals pos] & s3 & H4 & PY). apply write_ok in PY as (ls & H3 & ->).
    unfold wlistrec in CP. cbs CP as s1 E. cbs CP as z4 E4. cbn zeta in CP. unfold fields_reg in CP. cbn [reg_instr] in RG. destruct (reg_fields up lv cur (cont_fields f)) as [c1|] eqn:RF; [|discriminate].
    destruct (vars_in up c1 name) as [up' cur1] eqn:VI.
    match type of CP with in_wnamed _ ?b _ = _ => set (wb := b) in * end.
    assert (GB : forall a b, wb a = Val b -> wgrows a b) by (intros a b Q; unfold wb in Q; cbs Q as npl E0; eapply wlist_all_grows; exact Q).
    assert (RN1 : regular (w_notes s1)) by (assert (G := CP); apply in_wnamed_grows in G; [|exact GB]; eapply wgrows_forall in G; [exact G|exact RN]).
    rewrite prepare_draft in E. match type of E with wfields _ _ _ _ _ _ ?x = _ => set (st0 := x) in * end.
    destruct (wfields_both up lv s _ _ _ _ (R : wrel c up lv s (w_c st0)) E RN1) as (rs & F & K & O & N & D).
    unfold cont_fields, head_fields in F. cbn [app] in F.
    apply forall2_cons_inv in F as ([n0 x0] & m0 & -> & (V0 & T0) & F). apply forall2_cons_inv in F as ([n1 x1] & m1 & -> & (V1 & T1) & F).
    apply forall2_cons_inv in F as ([n2 x2] & m2 & -> & (V2 & T2) & F). apply forall2_cons_inv in F as ([n3 x3] & m3 & -> & (V3 & T3) & F).
    apply forall2_cons_inv in F as ([n4 x4] & m4 & -> & (V4 & T4) & F). apply forall2_cons_inv in F as ([n5 x5] & m5 & -> & (V5 & T5) & F). apply forall2_nil_inv in F as ->. cbn [fst snd] in *.
    assert (R1 : wrel c up lv s (w_c s1)) by (rewrite <- (add_lines_nil s); eapply wrel_keep; [exact K|exact R]).
    assert (R4 : exists q q', reg_field up lv TInt q (f_n1 f) = Some q').
    { unfold cont_fields, head_fields in RF. cbn [app reg_fields] in RF.
      destruct (reg_field up lv TFloat cur (f_c1 f)) as [q1|]; [|discriminate]. destruct (reg_field up lv TFloat q1 (f_c2 f)) as [q2|]; [|discriminate].
      destruct (reg_field up lv TInt q2 (f_l1 f)) as [q3|]; [|discriminate]. destruct (reg_field up lv TInt q3 (f_l2 f)) as [q4|]; [|discriminate].
      destruct (reg_field up lv TInt q4 (f_n1 f)) as [q5|] eqn:Q; [|discriminate]. eauto. }
    destruct R4 as (q & q' & R4). destruct (npl_known _ _ _ _ _ _ _ _ _ _ R1 R4 V4 E4) as [-> I4].
    unfold value_of in *. cbn [fields_list mapM] in H2. rewrite V0, V1, V2, V3, V4, V5 in H2. cbn [bind] in H2. injection H2 as <-.
    destruct (named_both (list_body en body ([], 0%nat)) wb (fun ls a b => ls = [] /\ list_done vals a b) name _ up lv c1 cur' s (flush (put_int 4 z4 s1)) (vals, pos) s3 st' R1 RG GB H4 CP RN)
      as (l0 & -> & K2 & -> & LD).
    { rewrite VI. cbn [fst snd]. intros sa ta sb tb [w W] RA OA PA CA RB. unfold wb in CA. cbs CA as npl E0.
      destruct (wlist_both npl up' lv cur1 w body sa ta _ sb tb RA W PA CA RB) as (-> & KA & LD). exists []. split; [now rewrite add_lines_nil|]. auto. }
    unfold the_ctrl in H3. rewrite add_lines_nil in H3 |- *. rewrite (wr_ctrl _ _ _ _ _ R) in H3. cbn [bind cont_of mapM as_num] in H3. rewrite EO in H3.
    unfold write_list in H3. cbn [N1] in H3. cbn zeta in H3. destruct (num_lt_Z (NInt z4) (Z.of_nat (length vals))); [discriminate|]. destruct (Z_lt_num (Z.of_nat (length vals)) (NInt z4)); [discriminate|].
    pose proof (int_text _ I4) as T4'. rewrite (cont_line _ _ _ _ _ _ _ _ _ _ _ _ T0 T1 T2 T3 T4' T5) in H3. cbn [bind] in H3.
    set (y4 := rjust 11 (str_of_Z z4)) in *.
    destruct LD as (ts & fulls & dn & TX & -> & FF & ND & L6 & WH & B1 & B2).
    assert (W1 : widths 11 (concat fulls) /\ widths 11 dn) by (apply texts_widths in TX; unfold widths in *; now apply Forall_app in TX).
    destruct W1 as [WF WD].
    assert (LV : length vals = (6 * length fulls + length dn)%nat) by (apply Forall2_length in TX; rewrite TX, app_length, (concat_fulls _ FF); reflexivity).
    assert (D0 : length dn <> 0%nat) by (destruct dn; [contradiction|discriminate]).
    rewrite (proj2 (Z.ltb_lt 0 (Z.of_nat (length vals)))) in H3 by lia.
    destruct zero_flt as (z & Z1 & Z2).
    assert (BODY : exists k bl, write_endf_floats wo (vals ++ (if Z.of_nat (length vals) mod 6 =? 0 then [] else repeat (NFlt (S754_zero false)) (Z.to_nat (6 - Z.of_nat (length vals) mod 6)))) = Ok (map (@concat ascii) fulls ++ [bl]) /\
      bl = concat dn ++ concat (repeat z k) /\ k = (6 - length dn)%nat).
    { assert (MM : Z.of_nat (length vals) mod 6 = Z.of_nat (length dn) mod 6).
      { rewrite LV. replace (Z.of_nat (6 * length fulls + length dn)) with (Z.of_nat (length dn) + Z.of_nat (length fulls) * 6) by lia. apply Z_mod_plus_full. }
      exists (6 - length dn)%nat, (concat dn ++ concat (repeat z (6 - length dn))). split; [|auto].
      assert (PAD : (if Z.of_nat (length vals) mod 6 =? 0 then [] else repeat (NFlt (S754_zero false)) (Z.to_nat (6 - Z.of_nat (length vals) mod 6))) = repeat (NFlt (S754_zero false)) (6 - length dn)).
      { rewrite MM. destruct (Nat.eq_dec (length dn) 6) as [E6|E6].
        - rewrite E6. reflexivity.
        - rewrite Z.mod_small by lia. rewrite (proj2 (Z.eqb_neq (Z.of_nat (length dn)) 0)) by lia. f_equal. lia. }
      rewrite PAD. rewrite (floats_text wo _ ((concat fulls ++ dn) ++ repeat z (6 - length dn))).
      - rewrite <- app_assoc, array_fulls; [| |rewrite app_length, repeat_length; lia|exact FF|exact WF].
        + rewrite concat_app, ljust_id; [reflexivity|]. rewrite app_length, (length_concat_widths 11 dn WD), (length_concat_widths 11 (repeat z _)), repeat_length; [lia|].
          unfold widths. apply Forall_forall. intros u U. apply repeat_spec in U. now subst.
        + destruct dn; [contradiction|discriminate].
      - exact width11.
      - destruct vals; [cbn [length] in LV; lia|discriminate].
      - apply Forall2_app; [exact TX|]. generalize (6 - length dn)%nat. intros k. induction k as [|k IH]; cbn [repeat]; constructor; [split; assumption|exact IH]. }
    destruct BODY as (k & bl & BO & BL & KK). rewrite BO in H3. cbn [bind] in H3. injection H3 as <-.
    exists (concat [x0; x1; x2; x3; y4; x5] :: map (@concat ascii) fulls ++ [bl]), (concat [x0; x1; x2; x3; y4; x5] :: map (@concat ascii) fulls ++ [concat dn ++ spaces (66 - 11 * length dn)]).
    split; [reflexivity|]. split; [|split; [|split; [exact (wkeep_trans _ _ _ K K2)|]]].
    - constructor; [now left|]. apply Forall2_app; [apply same_alike|]. constructor; [|constructor]. destruct WH as [W6|WH].
      + left. rewrite BL, KK, W6. cbn [Nat.sub repeat concat Nat.mul Nat.add spaces]. reflexivity.
      + right. split; [exact WH|]. exists (concat dn), z, k. split; [exact Z1|]. split; [exact BL|]. subst k. replace (66 - 11 * length dn)%nat with (11 * (6 - length dn))%nat by lia. reflexivity.
    - constructor; [apply line66; repeat (constructor; [first [apply T0|apply T1|apply T2|apply T3|apply T4'|apply T5]|]); constructor|]. apply Forall_app. split.
      + apply Forall_map. clear - FF WF. induction fulls as [|r fs IH]; constructor.
        * inversion FF as [|? ? L6 FR]; subst. cbn [concat] in WF. unfold widths in WF. apply Forall_app in WF as [W1 _]. rewrite (length_concat_widths 11 r W1). lia.
        * inversion FF as [|? ? L6 FR]; subst. cbn [concat] in WF. unfold widths in WF. apply Forall_app in WF as [_ W2]. now apply IH.
      + constructor; [|constructor]. subst bl k. rewrite app_length, (length_concat_widths 11 dn WD), (length_concat_widths 11 (repeat z _)), repeat_length; [lia|].
        unfold widths. apply Forall_forall. intros u U. apply repeat_spec in U. now subst.
    - cbn [outs fst snd flush put_int w_line w_out w_num w_draft] in B1, B2. rewrite B1, B2. cbn [tab_text length]. rewrite app_length, map_length. cbn [length].
      assert (DD : w_draft s1 = concat [x0; x1; x2; x3; x4; x5] ++ tl o c (w_num st)).
      { rewrite D. unfold st0. cbn [w_draft]. cbn [cont_fields head_fields app combine map fst snd].
        rewrite put_slots; [reflexivity|apply six_len|]. repeat (constructor; [cbn; split; [lia|first [apply T0|apply T1|apply T2|apply T3|apply T4|apply T5]]|]). constructor. }
      unfold cpp_write_int_field. rewrite DD, O, N. unfold st0. cbn [w_out w_num]. 
      rewrite slot_put by (first [cbn; lia|apply T4'|repeat (constructor; [first [reflexivity|apply T0|apply T1|apply T2|apply T3|apply T4|apply T5]|]); constructor]). cbn [replace].
      split; [rewrite <- !app_assoc; reflexivity|clear; unfold str; lia].
  Qed.
End Records.
