(** The exceptions of texts that are not accepted (C64). *)
From Coq Require Import Ascii String ZArith Bool Lia List.
From Verif Require Import PyBase PyFloat ModelFortran ModelRecords ModelTape SpecFields SpecLibm SpecTape SpecReject ProofPyBase ProofFields ProofTape ProofTapeWrite ProofTapeParse.
Import ListNotations.
Open Scope Z_scope.

Lemma ctrl_int_err s e : ctrl_int s = Err e -> e = ValueError.
Proof. unfold ctrl_int. destruct (strip s) as [|c t]; [discriminate|]. destruct (int_of_str (c :: t)); [discriminate|]. intros H. now inversion H. Qed.
Lemma read_ctrl_err ro l e : read_ctrl ro l = Err e -> e = ValueError.
Proof.
  unfold read_ctrl. intros H.
  destruct (ctrl_int (slice (6 * r_width ro) (6 * r_width ro + 4) l)) eqn:A; cbn [bind] in H; [|inversion H; subst; eauto using ctrl_int_err].
  destruct (ctrl_int (slice (6 * r_width ro + 4) (6 * r_width ro + 6) l)) eqn:B; cbn [bind] in H; [|inversion H; subst; eauto using ctrl_int_err].
  destruct (ctrl_int (slice (6 * r_width ro + 6) (6 * r_width ro + 9) l)) eqn:C; cbn [bind] in H; [|inversion H; subst; eauto using ctrl_int_err].
  discriminate.
Qed.
Lemma read_ctrl_bad ro l e : read_ctrl ro l = Err e -> no_numbers (r_width ro) l.
Proof. intros H (mat & mf & mt & C). apply (proj2 (carries_iff ro l mat mf mt)) in C. congruence. Qed.
Lemma fort_int_err s e : read_fort_int s = Err e -> is_parser_exception e = true.
Proof. unfold read_fort_int. destruct (is_blank s); [discriminate|]. destruct (int_of_str s); [discriminate|]. intros H. inversion H. reflexivity. Qed.
Lemma fort_float_err ro s e : read_fort_float ro s = Err e -> is_parser_exception e = true.
Proof.
  unfold read_fort_float, fortstr2float. destruct (is_blank (firstn (r_width ro) s)); [discriminate|].
  match goal with |- context [float_of_str ?x] => destruct (float_of_str x) end; [discriminate|]. intros H. inversion H. reflexivity.
Qed.
Lemma read_send_err ro l c e : read_ctrl ro l = Ok c -> read_send ro [l] 0 = Err e -> is_parser_exception e = true.
Proof.
  intros C H. unfold read_send, read_cont, get_line in H. cbn [nth_error bind] in H.
  repeat match type of H with
         | bind (bind ?x _) _ = _ => destruct x eqn:?; cbn [bind] in H; [|inversion H; subst; eauto using fort_int_err, fort_float_err; try congruence]
         end.
  match type of H with (if ?b then _ else _) = _ => destruct b end; [|discriminate]. inversion H. reflexivity.
Qed.

Lemma step_err ro st l e : split_step ro st l = Err e -> reported (r_width ro) [l] e.
Proof.
  unfold split_step, reported. destruct (is_blank l) eqn:B.
  - destruct (sec_level st =? -1); [discriminate|]. destruct (r_blank ro); [discriminate|]. intros H. inversion H. auto.
  - destruct (sec_level st =? -1); [intros H; inversion H; auto|].
    destruct (read_ctrl ro l) as [c|e'] eqn:C; cbn [bind].
    + match goal with |- (if ?b then _ else _) = _ -> _ => destruct b end; [intros H; inversion H; auto|].
      match goal with |- (if ?b then _ else _) = _ -> _ => destruct b end; [discriminate|].
      destruct (r_send ro); [discriminate|].
      repeat match goal with |- (if ?b then _ else _) = _ -> _ => destruct b; [intros H; inversion H; auto|] end.
      destruct (read_send ro [l] 0) as [x|e'] eqn:S; cbn [bind]; [discriminate|]. intros H. inversion H; subst. left. eauto using read_send_err.
    + intros H. inversion H; subst. right. split; [eauto using read_ctrl_err|]. exists l. split; [now left|]. split; [|eauto using read_ctrl_bad].
      intros X. apply blank_iff in X. congruence.
Qed.
Lemma reported_in w l lines e : (forall x, In x l -> In x lines) -> reported w l e -> reported w lines e.
Proof. intros S [P|(-> & x & I & Q)]; [now left|]. right. split; [reflexivity|]. exists x. auto. Qed.
Lemma loop_err ro : forall lines st e, split_loop ro st lines = Err e -> reported (r_width ro) lines e.
Proof.
  induction lines as [|l lines IH]; intros st e H; cbn [split_loop] in H; [discriminate|].
  destruct (split_step ro st l) as [st'|e'] eqn:E; cbn [bind] in H.
  - apply (reported_in _ lines); [intros; now right|]. eauto.
  - inversion H; subst. apply (reported_in _ [l]); [intros x [->|[]]; now left|]. eauto using step_err.
Qed.
Lemma skip_err ro : forall lines e, skip_leading_blank ro lines = Err e -> is_parser_exception e = true \/ (e = IndexError /\ Forall blank lines).
Proof.
  induction lines as [|l lines IH]; intros e H; cbn [skip_leading_blank] in H; [inversion H; right; auto|].
  destruct (is_blank l) eqn:B; [|discriminate]. destruct (r_blank ro); [|inversion H; now left].
  destruct (IH e H) as [P|[-> F]]; [now left|]. right. split; [reflexivity|]. constructor; [now apply blank_iff|exact F].
Qed.
Lemma skip_ok ro : forall lines rest, skip_leading_blank ro lines = Ok rest -> exists h r, rest = h :: r /\ ~ blank h /\ (forall x, In x rest -> In x lines) /\
  (hd [] lines = h \/ blank (hd [] lines)).
Proof.
  induction lines as [|l lines IH]; intros rest H; cbn [skip_leading_blank] in H; [discriminate|].
  destruct (is_blank l) eqn:B.
  - destruct (r_blank ro); [|discriminate]. destruct (IH rest H) as (h & r & -> & N & S & _). exists h, r. split; [reflexivity|]. split; [exact N|].
    split; [intros; right; auto|]. right. now apply blank_iff.
  - inversion H; subst. exists l, lines. split; [reflexivity|]. split; [intros X; apply blank_iff in X; congruence|]. split; [auto|]. now left.
Qed.
Lemma split_err ro lines e : split_sections ro lines = Err e -> reported (r_width ro) lines e \/ (e = IndexError /\ Forall blank lines).
Proof.
  unfold split_sections. destruct (skip_leading_blank ro lines) as [rest|e'] eqn:S; cbn [bind].
  - destruct (skip_ok ro lines rest S) as (h & r & -> & N & Su & _). destruct lines as [|l0 lines]; [discriminate S|].
    unfold get_line. cbn [nth_error bind]. destruct (read_ctrl ro h) as [th|e'] eqn:C; cbn [bind].
    + intros H. left.
      match type of H with bind ?x _ = _ => destruct x as [st|e'] eqn:E end; cbn [bind] in H.
      * match type of H with (if ?b then _ else _) = _ => destruct b end; [|discriminate]. inversion H. now left.
      * inversion H; subst. destruct (_ || _).
        { destruct (negb (r_tpid ro)); [inversion E; now left|]. apply loop_err in E. exact (reported_in _ _ _ _ Su E). }
        apply loop_err in E. cbn [tl] in E. apply (reported_in _ r); [intros x I; apply Su; now right|exact E].
    + intros H. inversion H; subst. left. right. split; [eauto using read_ctrl_err|]. exists h. split; [apply Su; now left|]. split; [exact N|eauto using read_ctrl_bad].
  - intros H. inversion H; subst. destruct (skip_err ro lines e S) as [P|Q]; [left; now left|now right].
Qed.

(** ** The sections *)

Definition readable (ro : ropts) (d : mfdic (list str)) : Prop := forall mf mt ls, holds d mf mt ls -> exists l r c, ls = l :: r /\ read_ctrl ro l = Ok c.
Lemma zget_In {A} k (d : list (Z * A)) v : zget k d = Some v -> In (k, v) d.
Proof. induction d as [|[j w] d IH]; cbn [zget]; [discriminate|]. destruct (Z.eqb_spec k j) as [->|]; [intros H; inversion H; now left|]. intros H. right. auto. Qed.
Lemma readable_append ro d mf mt l c : readable ro d -> read_ctrl ro l = Ok c -> readable ro (dic_append d mf mt l).
Proof.
  intros R C mf' mt' ls (sub & I & J). unfold dic_append in I. apply zset_in in I as [E|I].
  - inversion E; subst. apply zset_in in J as [E'|J].
    + inversion E'; subst. destruct (zget mf d) as [s|] eqn:G; [|cbn; exists l, [], c; auto].
      destruct (zget mt s) as [x|] eqn:G'; [|cbn; exists l, [], c; auto].
      destruct (R mf mt x) as (l1 & r1 & c1 & -> & C1); [exists s; split; apply zget_In; assumption|]. exists l1, (r1 ++ [l]), c1. auto.
    + destruct (zget mf d) as [s|] eqn:G; [|destruct J]. apply (R mf mt'). exists s. split; [now apply zget_In|exact J].
  - apply (R mf' mt'). exists sub. auto.
Qed.
Lemma step_readable ro st l st' : split_step ro st l = Ok st' -> readable ro (sec_dic st) -> readable ro (sec_dic st').
Proof.
  unfold split_step. intros H R. destruct (is_blank l).
  - destruct (sec_level st =? -1); [inversion H; subst; exact R|]. destruct (r_blank ro); inversion H; subst; exact R.
  - destruct (sec_level st =? -1); [discriminate|]. destruct (read_ctrl ro l) as [c|] eqn:C; cbn [bind] in H; [|discriminate].
    match type of H with (if ?b then _ else _) = _ => destruct b end; [discriminate|].
    match type of H with (if ?b then _ else _) = _ => destruct b end; [inversion H; subst; cbn [sec_dic]; eauto using readable_append|].
    destruct (r_send ro); [inversion H; subst; exact R|].
    repeat match type of H with (if ?b then _ else _) = _ => destruct b; [discriminate|] end.
    destruct (read_send ro [l] 0); cbn [bind] in H; [|discriminate]. inversion H; subst. exact R.
Qed.
Lemma loop_readable ro : forall lines st st', split_loop ro st lines = Ok st' -> readable ro (sec_dic st) -> readable ro (sec_dic st').
Proof.
  induction lines as [|l lines IH]; intros st st' H R; cbn [split_loop] in H; [inversion H; subst; exact R|].
  destruct (split_step ro st l) eqn:E; cbn [bind] in H; [|discriminate]. eauto using step_readable.
Qed.
Lemma ctrl_int_blank s : blank s -> ctrl_int s = Ok 0.
Proof. intros F. apply blank_iff in F. unfold is_blank in F. unfold ctrl_int. destruct (strip s); [reflexivity|discriminate]. Qed.
Lemma blank_readable ro l : blank l -> read_ctrl ro l = Ok (mkctrl 0 0 0).
Proof.
  intros B. unfold read_ctrl, slice.
  assert (S : forall a b, blank (firstn b (skipn a l))).
  { intros a b x I. apply B.
    assert (J : In x (skipn a l)) by (rewrite <- (firstn_skipn b (skipn a l)); apply in_or_app; now left).
    rewrite <- (firstn_skipn a l). apply in_or_app. now right. }
  rewrite !ctrl_int_blank by apply S. reflexivity.
Qed.
Lemma split_readable ro lines d : split_sections ro lines = Ok d -> readable ro d.
Proof.
  unfold split_sections. destruct (skip_leading_blank ro lines) as [rest|] eqn:S; cbn [bind]; [|discriminate].
  destruct (skip_ok ro lines rest S) as (h & r & -> & N & Su & L). destruct lines as [|l0 lines]; [discriminate S|].
  unfold get_line. cbn [nth_error bind hd] in *. destruct (read_ctrl ro h) as [th|] eqn:C; cbn [bind]; [|discriminate]. intros H.
  match type of H with bind ?x _ = _ => destruct x as [st|] eqn:E end; cbn [bind] in H; [|discriminate].
  match type of H with (if ?b then _ else _) = _ => destruct b end; [discriminate|]. inversion H; subst.
  destruct (_ || _).
  - destruct (negb (r_tpid ro)); [discriminate|]. apply loop_readable in E; [exact E|]. intros mf mt ls (sub & [] & _).
  - apply loop_readable in E; [exact E|]. cbn [sec_dic].
    assert (C0 : exists c, read_ctrl ro l0 = Ok c) by (destruct L as [->|B]; [eauto|rewrite (blank_readable ro l0 B); eauto]).
    destruct C0 as [c0 C0]. eapply readable_append; [|exact C0]. intros mf mt ls (sub & [] & _).
Qed.

Section Parse.
  Context {P D : Type}.
  Variable pr : P -> Z -> Z -> list str -> result D * P.
  Variable has : Z -> Z -> bool.
  Variables (ro : ropts) (wo : wopts).
  Hypothesis W : field_width wo.
  Variable nofail : bool.
  Variables exc inc : selection.
  Let from_recipe := from_recipe pr has nofail exc inc.
  Lemma section_err p mf mt ls e p' : (exists l r c, ls = l :: r /\ read_ctrl ro l = Ok c) ->
    parse_section pr has ro wo nofail exc inc p mf mt ls = (Err e, p') -> from_recipe mf mt ls e.
  Proof.
    intros (l & r & c & -> & C). unfold parse_section, get_line. cbn [nth_error bind]. rewrite C.
    destruct (has mf mt) eqn:Hr; cbn [andb]; [|discriminate]. destruct (should_skip_section mf mt exc inc) eqn:Sk; cbn [negb]; [discriminate|].
    destruct (write_end_total wo false W {| MAT := MAT c; MF := MF c; MT := 0 |} $"99999") as (l' & E). unfold write_send. rewrite E.
    destruct (pr p mf mt ((l :: r) ++ l')) as [[y|e'] p1] eqn:R; [discriminate|].
    destruct (is_parser_exception e' && nofail) eqn:X; [discriminate|]. intros H. inversion H; subst.
    split; [exact Hr|]. split; [now apply selected_iff|]. split; [|eauto]. intros ->. rewrite andb_true_r in X. exact X.
  Qed.
  Lemma mts_err mf : forall mts p e p', (forall mt ls, In (mt, ls) mts -> exists l r c, ls = l :: r /\ read_ctrl ro l = Ok c) ->
    parse_mts pr has ro wo nofail exc inc p mf mts = (Err e, p') -> exists mt ls, In (mt, ls) mts /\ from_recipe mf mt ls e.
  Proof.
    induction mts as [|[mt ls] mts IH]; intros p e p' F H; cbn [parse_mts] in H; [discriminate|].
    destruct (parse_section pr has ro wo nofail exc inc p mf mt ls) as [[x|e1] p1] eqn:E1.
    - destruct (parse_mts pr has ro wo nofail exc inc p1 mf mts) as [[y|e2] p2] eqn:E2; [discriminate|]. inversion H; subst.
      destruct (IH p1 e p') as (mt' & ls' & I & X); [intros; apply (F mt0); now right|exact E2|]. exists mt', ls'. split; [now right|exact X].
    - inversion H; subst. exists mt, ls. split; [now left|]. eapply section_err; [|exact E1]. apply (F mt). now left.
  Qed.
  Lemma mfs_err : forall d p e p', readable ro d -> parse_mfs pr has ro wo nofail exc inc p d = (Err e, p') ->
    exists mf mt ls, holds d mf mt ls /\ from_recipe mf mt ls e.
  Proof.
    induction d as [|[mf mts] d IH]; intros p e p' R H; cbn [parse_mfs] in H; [discriminate|].
    destruct (parse_mts pr has ro wo nofail exc inc p mf mts) as [[x|e1] p1] eqn:E1.
    - destruct (parse_mfs pr has ro wo nofail exc inc p1 d) as [[y|e2] p2] eqn:E2; [discriminate|]. inversion H; subst.
      destruct (IH p1 e p') as (mf' & mt' & ls' & (sub & I & J) & X); [intros a b c0 (s & I & J); apply (R a b); exists s; split; [now right|exact J]|exact E2|].
      exists mf', mt', ls'. split; [exists sub; split; [now right|exact J]|exact X].
    - inversion H; subst. destruct (mts_err mf mts p e p') as (mt & ls & I & X); [intros mt ls I; apply (R mf mt); exists mts; split; [now left|exact I]|exact E1|].
      exists mf, mt, ls. split; [exists mts; split; [now left|exact I]|exact X].
  Qed.
  Lemma parse_err p lines e p' : parse_tape pr has ro wo nofail exc inc p lines = (Err e, p') ->
    reported (r_width ro) lines e \/ (e = IndexError /\ Forall blank lines) \/
    exists d mf mt ls, split_sections ro lines = Ok d /\ holds d mf mt ls /\ from_recipe mf mt ls e.
  Proof.
    unfold parse_tape. destruct (split_sections ro lines) as [d|e'] eqn:E; intros H.
    - right. right. destruct (mfs_err d p e p' (split_readable ro lines d E) H) as (mf & mt & ls & X & Y). exists d, mf, mt, ls. auto.
    - inversion H; subst. destruct (split_err ro lines e E) as [X|X]; auto.
  Qed.
End Parse.

Lemma framing_err ro lines e : has_numbers (r_width ro) lines -> split_sections ro lines = Err e -> is_parser_exception e = true.
Proof.
  intros [(l & I & N) F] H. destruct (split_err ro lines e H) as [[P|(_ & x & J & M & Q)]|[_ B]]; [exact P|destruct Q; auto|].
  rewrite Forall_forall in B. destruct (N (B l I)).
Qed.
Lemma parse_nofail {P D} (pr : P -> Z -> Z -> list str -> result D * P) has ro wo exc inc :
  field_width wo -> (forall p mf mt ls e p', pr p mf mt ls = (Err e, p') -> is_parser_exception e = true) ->
  forall p lines d, split_sections ro lines = Ok d -> exists out p', parse_tape pr has ro wo true exc inc p lines = (Ok out, p').
Proof.
  intros W F p lines d S. destruct (parse_tape pr has ro wo true exc inc p lines) as [[out|e] p'] eqn:E; [eauto|]. exfalso.
  unfold parse_tape in E. rewrite S in E.
  destruct (mfs_err pr has ro wo W true exc inc d p e p' (split_readable ro lines d S) E) as (mf & mt & ls & _ & _ & _ & X & p1 & send & p2 & Y).
  apply F in Y. rewrite X in Y; [discriminate|reflexivity].
Qed.

(** ** Texts that are cut short *)

Lemma skip_app ro x : forall pre rest, skip_leading_blank ro pre = Ok rest -> skip_leading_blank ro (pre ++ x) = Ok (rest ++ x).
Proof.
  induction pre as [|l pre IH]; intros rest H; cbn [skip_leading_blank app] in *; [discriminate|].
  destruct (is_blank l); [|inversion H; reflexivity]. destruct (r_blank ro); [auto|discriminate].
Qed.
Definition finish (ro : ropts) (st : split_state) : result (mfdic (list str)) :=
  if negb (r_send ro) && (0 <=? sec_level st) then Err UnexpectedEndOfInputError else Ok (sec_dic st).
Lemma skip_total ro : forall pre l, In l pre -> ~ blank l -> (exists rest, skip_leading_blank ro pre = Ok rest) \/ (forall x, skip_leading_blank ro (pre ++ x) = Err BlankLineError).
Proof.
  induction pre as [|a pre IH]; intros l I N; [destruct I|]. cbn [skip_leading_blank app]. destruct (is_blank a) eqn:B; [|eauto].
  destruct (r_blank ro); [|right; reflexivity]. destruct I as [->|I]; [destruct N; now apply blank_iff|]. eauto.
Qed.
Lemma skip_blank ro x rest : forall pre, Forall blank pre -> skip_leading_blank ro (pre ++ x) = Ok rest -> skip_leading_blank ro pre = Err IndexError.
Proof.
  induction pre as [|a pre IH]; intros F H; [reflexivity|]. inversion F as [|? ? B F']; subst. apply blank_iff in B. cbn [skip_leading_blank app] in *. rewrite B in *.
  destruct (r_blank ro); [auto|discriminate].
Qed.
Lemma loop_end ro : forall x st st', sec_level st = -1 -> split_loop ro st x = Ok st' -> Forall blank x /\ st' = st.
Proof.
  induction x as [|l x IH]; intros st st' L H; cbn [split_loop] in H; [inversion H; auto|].
  destruct (split_step ro st l) as [s|] eqn:E; cbn [bind] in H; [|discriminate]. unfold split_step in E. rewrite L in E. cbn [Z.eqb] in E.
  destruct (is_blank l) eqn:B; [|discriminate]. inversion E; subst. destruct (IH _ _ L H). split; [constructor; [now apply blank_iff|assumption]|assumption].
Qed.
Lemma step_level ro st l st' : r_send ro = false -> -1 <= sec_level st -> split_step ro st l = Ok st' -> -1 <= sec_level st'.
Proof.
  unfold split_step. intros Rs G H. destruct (is_blank l).
  - destruct (sec_level st =? -1); [inversion H; subst; exact G|]. destruct (r_blank ro); inversion H; subst; exact G.
  - destruct (Z.eqb_spec (sec_level st) (-1)) as [|N]; [discriminate|]. destruct (read_ctrl ro l) as [c|] eqn:C; cbn [bind] in H; [|discriminate].
    match type of H with (if ?b then _ else _) = _ => destruct b end; [discriminate|].
    match type of H with (if ?b then _ else _) = _ => destruct b end; [inversion H; subst; cbn; lia|]. rewrite Rs in H.
    repeat match type of H with (if ?b then _ else _) = _ => destruct b; [discriminate|] end.
    destruct (read_send ro [l] 0); cbn [bind] in H; [|discriminate]. inversion H; subst. cbn. lia.
Qed.
Lemma loop_level ro : r_send ro = false -> forall x st st', -1 <= sec_level st -> split_loop ro st x = Ok st' -> -1 <= sec_level st'.
Proof.
  intros Rs. induction x as [|l x IH]; intros st st' G H; cbn [split_loop] in H; [inversion H; subst; exact G|].
  destruct (split_step ro st l) eqn:E; cbn [bind] in H; [|discriminate]. eauto using step_level.
Qed.
Lemma split_app_level ro pre rest : r_send ro = false -> skip_leading_blank ro pre = Ok rest -> exists R : result split_state,
  (forall st, R = Ok st -> -1 <= sec_level st) /\
  forall x, split_sections ro (pre ++ x) = do st <- R; do st' <- split_loop ro st x; finish ro st'.
Proof.
  intros Rs S. destruct (skip_ok ro pre rest S) as (h & r & -> & _). destruct pre as [|l0 pre]; [discriminate S|].
  destruct (read_ctrl ro h) as [th|e] eqn:C.
  - destruct (negb (MF th =? 0) || negb (MT th =? 0)) eqn:B.
    + destruct (r_tpid ro) eqn:T.
      * exists (split_loop ro {| sec_level := 0; last_mat := 0; last_mf := 0; last_mt := 0; sec_dic := [] |} (h :: r)).
        split; [intros st E; eapply loop_level; [exact Rs| |exact E]; cbn; lia|].
        intros x. unfold split_sections. rewrite (skip_app ro x _ _ S). cbn [bind app]. unfold get_line. cbn [nth_error bind].
        rewrite C. cbn [bind]. rewrite B, T. cbn [negb]. rewrite app_comm_cons, split_loop_app. unfold finish.
        match goal with |- bind (bind ?a _) _ = _ => destruct a; reflexivity end.
      * exists (Err UnexpectedControlRecordError). split; [discriminate|]. intros x. unfold split_sections. rewrite (skip_app ro x _ _ S). cbn [bind app]. unfold get_line. cbn [nth_error bind].
        rewrite C. cbn [bind]. rewrite B, T. reflexivity.
    + exists (split_loop ro {| sec_level := 0; last_mat := 0; last_mf := 0; last_mt := 0; sec_dic := dic_append [] (MF th) (MT th) l0 |} r).
      split; [intros st E; eapply loop_level; [exact Rs| |exact E]; cbn; lia|].
      intros x. unfold split_sections. rewrite (skip_app ro x _ _ S). cbn [bind app]. unfold get_line. cbn [nth_error bind].
      rewrite C. cbn [bind tl]. rewrite B, split_loop_app. unfold finish.
      match goal with |- bind (bind ?a _) _ = _ => destruct a; reflexivity end.
  - exists (Err e). split; [discriminate|]. intros x. unfold split_sections. rewrite (skip_app ro x _ _ S). cbn [bind app]. unfold get_line. cbn [nth_error bind]. rewrite C. reflexivity.
Qed.
Lemma cut_lines ro pre post d : r_send ro = false -> split_sections ro (pre ++ post) = Ok d -> (exists l, In l post /\ ~ blank l) ->
  ((exists l, In l pre /\ ~ blank l) -> split_sections ro pre = Err UnexpectedEndOfInputError) /\
  (Forall blank pre -> split_sections ro pre = Err IndexError).
Proof.
  intros Rs H (b & Ib & Nb). split.
  - intros (l & I & N). destruct (skip_total ro pre l I N) as [[rest S]|X]; [|unfold split_sections in H; rewrite X in H; discriminate].
    destruct (split_app_level ro pre rest Rs S) as (R & L & E). rewrite E in H. rewrite <- (app_nil_r pre), E. destruct R as [st|]; cbn [bind] in *; [|discriminate].
    cbn [split_loop bind]. unfold finish. rewrite Rs. cbn [negb andb]. specialize (L st eq_refl). destruct (Z.leb_spec 0 (sec_level st)) as [|J]; [reflexivity|].
    destruct (split_loop ro st post) as [st'|] eqn:P; cbn [bind] in H; [|discriminate]. apply loop_end in P as [F _]; [|lia].
    rewrite Forall_forall in F. destruct (Nb (F b Ib)).
  - intros F. unfold split_sections in H. destruct (skip_leading_blank ro (pre ++ post)) eqn:S; cbn [bind] in H; [|discriminate].
    unfold split_sections. now rewrite (skip_blank ro post _ pre F S).
Qed.
Lemma cut_blank ro pre post d : r_send ro = false -> split_sections ro (pre ++ post) = Ok d -> (exists l, In l pre /\ ~ blank l) -> split_sections ro pre = Ok d \/
  split_sections ro pre = Err UnexpectedEndOfInputError.
Proof.
  intros Rs H (l & I & N). destruct (skip_total ro pre l I N) as [[rest S]|X]; [|unfold split_sections in H; rewrite X in H; discriminate].
  destruct (split_app_level ro pre rest Rs S) as (R & L & E). rewrite E in H. rewrite <- (app_nil_r pre), E. destruct R as [st|]; cbn [bind] in *; [|discriminate].
  cbn [split_loop bind]. unfold finish in *. rewrite Rs in *. cbn [negb andb] in *. specialize (L st eq_refl). destruct (Z.leb_spec 0 (sec_level st)) as [|J]; [now right|left].
  destruct (split_loop ro st post) as [st'|] eqn:P; cbn [bind] in H; [|discriminate]. apply loop_end in P as [_ ->]; [|lia].
  destruct (Z.leb_spec 0 (sec_level st)); [lia|exact H].
Qed.
Lemma int_minus s : int_text s (-1) -> In "-"%char s.
Proof.
  intros (w1 & sg & gs & w2 & -> & _ & _ & Sg & _ & D & V).
  assert (P : 0 <= digits_value (concat gs)).
  { assert (Dg : forall c, In c (concat gs) -> is_digit c = true).
    { intros c I. apply in_concat in I as (g & Ig & Ic). rewrite Forall_forall in D. destruct (D g Ig) as [_ X]. auto. }
    unfold digits_value. revert Dg. generalize (concat gs). enough (X : forall t, (forall c, In c t -> is_digit c = true) -> forall a, 0 <= a -> 0 <= fold_left (fun a c => 10 * a + digit_val c) t a) by (intros t Dg; apply X; [exact Dg|lia]).
    induction t as [|c t IH]; intros Dg a A; cbn [fold_left]; [exact A|]. apply IH; [intros x I; apply Dg; now right|]. pose proof (is_digit_range c (Dg c (or_introl eq_refl))). lia. }
  destruct Sg as [Sg|[Sg|Sg]]; subst sg; [exfalso; change (-1 = 1 * digits_value (concat gs)) in V; lia|exfalso; change (-1 = 1 * digits_value (concat gs)) in V; lia|].
  apply in_or_app. right. now left.
Qed.
Lemma slice_prefix {A} a b (s t : list A) x : In x (slice a b s) -> In x (slice a b (s ++ t)).
Proof.
  unfold slice. intros H. rewrite skipn_app, firstn_app. apply in_or_app. now left.
Qed.
Lemma cut_line ro (pre : list str) (l' l'' : str) (post : list str) d d' : r_send ro = false -> split_sections ro (pre ++ (l' ++ l'') :: post) = Ok d -> (exists l, In l pre /\ ~ blank l) ->
  split_sections ro (pre ++ [l']) = Ok d' ->
  Forall blank ((l' ++ l'') :: post) \/ In "-"%char (slice (6 * r_width ro) (6 * r_width ro + 4) (l' ++ l'')).
Proof.
  intros Rs H (l & I & N) K. destruct (skip_total ro pre l I N) as [[rest S]|X]; [|unfold split_sections in H; rewrite X in H; discriminate].
  destruct (split_app_level ro pre rest Rs S) as (R & L & E). rewrite E in H, K. destruct R as [st|]; cbn [bind] in *; [|discriminate]. specialize (L st eq_refl).
  destruct (Z.eqb_spec (sec_level st) (-1)) as [M|M].
  - left. destruct (split_loop ro st ((l' ++ l'') :: post)) as [st'|] eqn:P; cbn [bind] in H; [|discriminate]. now apply loop_end in P as [F _].
  - right. apply slice_prefix. cbn [split_loop] in K. destruct (split_step ro st l') as [s|] eqn:P; cbn [bind] in K; [|discriminate].
    unfold finish in K. rewrite Rs in K. cbn [negb andb] in K. destruct (Z.leb_spec 0 (sec_level s)) as [|J]; [discriminate|].
    unfold split_step in P. destruct (is_blank l').
    { destruct (sec_level st =? -1); [inversion P; subst; lia|]. destruct (r_blank ro); inversion P; subst; lia. }
    destruct (Z.eqb_spec (sec_level st) (-1)); [contradiction|]. destruct (read_ctrl ro l') as [c|] eqn:C; cbn [bind] in P; [|discriminate].
    match type of P with (if ?b then _ else _) = _ => destruct b end; [discriminate|].
    match type of P with (if ?b then _ else _) = _ => destruct b end; [inversion P; subst; cbn in J; lia|]. rewrite Rs in P.
    do 4 (match type of P with (if ?b then _ else _) = _ => destruct b; [discriminate|] end).
    destruct ((sec_level st =? 0) && negb (MAT c =? -1)) eqn:Q; [discriminate|]. destruct (read_send ro [l'] 0); cbn [bind] in P; [|discriminate]. inversion P; subst.
    cbn [with_level sec_level] in J. replace (sec_level st) with 0 in Q by lia. cbn in Q. destruct (Z.eqb_spec (MAT c) (-1)) as [Mc|]; [|discriminate].
    destruct c as [mat mf mt]; cbn [ModelRecords.MAT] in Mc; subst mat. 
    apply carries_iff in C. destruct C as [C _]. destruct C as [[_ Y]|[_ Y]]; [discriminate Y|]. now apply int_minus.
Qed.

Definition readable_line (ro : ropts) (l : str) : bool := match read_ctrl ro l with Ok _ => true | Err _ => false end.
Lemma readable_lines ro lines : forallb (readable_line ro) lines = true ->
  forall l, In l lines -> ~ blank l -> exists mat mf mt, carries (r_width ro) l mat mf mt.
Proof.
  intros F l I _. rewrite forallb_forall in F. specialize (F l I). unfold readable_line in F.
  destruct (read_ctrl ro l) as [[mat mf mt]|] eqn:E; [|discriminate]. exists mat, mf, mt. now apply carries_iff.
Qed.
