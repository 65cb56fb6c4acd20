(** Proofs about split_sections. *)
From Coq Require Import Ascii String ZArith Bool Lia List.
From Coq Require Import Floats.SpecFloat.
From Verif Require Import PyBase ProofPyBase PyFloat ModelFortran ModelRecords ModelTape
  SpecFields ProofFields SpecTape.
Import ListNotations.
Open Scope Z_scope.

(** ** Control columns *)

Lemma ctrl_int_fort s : match read_fort_int s with Ok v => ctrl_int s = Ok v | Err _ => ctrl_int s = Err ValueError end.
Proof.
  unfold read_fort_int, ctrl_int. unfold is_blank. destruct (strip s) as [|c t] eqn:E; [reflexivity|].
  rewrite <- E. rewrite int_of_str_strip. destruct (int_of_str s); reflexivity.
Qed.

Lemma ctrl_int_iff s v : ctrl_int s = Ok v <-> col_int s v.
Proof.
  unfold col_int. rewrite <- read_fort_int_spec. pose proof (ctrl_int_fort s) as H.
  destruct (read_fort_int s); rewrite H; split; congruence.
Qed.

Lemma carries_iff ro l mat mf mt : read_ctrl ro l = Ok (mkctrl mat mf mt) <-> carries (r_width ro) l mat mf mt.
Proof.
  unfold read_ctrl, carries. rewrite <- !ctrl_int_iff.
  destruct (ctrl_int (slice (6 * r_width ro) _ l)) as [a|]; cbn [bind]; [|split; [discriminate|intros [? _]; discriminate]].
  destruct (ctrl_int (slice (6 * r_width ro + 4) _ l)) as [b|]; cbn [bind]; [|split; [discriminate|intros (_ & ? & _); discriminate]].
  destruct (ctrl_int (slice (6 * r_width ro + 6) _ l)) as [c|]; cbn [bind]; [|split; [discriminate|intros (_ & _ & ?); discriminate]].
  unfold mkctrl. split; [intros H; inversion H; auto|intros (H1 & H2 & H3); congruence].
Qed.

Lemma carries_fun w l a b c a' b' c' : carries w l a b c -> carries w l a' b' c' -> a = a' /\ b = b' /\ c = c'.
Proof.
  set (ro := ctrl_ropts w). change w with (r_width ro). rewrite <- !carries_iff. intros H1 H2.
  rewrite H1 in H2. unfold mkctrl in H2. inversion H2. auto.
Qed.

Lemma in_firstn {A} (x : A) n l : In x (firstn n l) -> In x l.
Proof. revert l; induction n as [|n IH]; intros [|y l] H; cbn in *; try contradiction. destruct H; auto. Qed.
Lemma in_skipn {A} (x : A) n l : In x (skipn n l) -> In x l.
Proof. revert l; induction n as [|n IH]; intros [|y l] H; cbn in *; auto. Qed.
Lemma in_slice {A} a b (s : list A) x : In x (slice a b s) -> In x s.
Proof. unfold slice. intros H. eauto using in_firstn, in_skipn. Qed.

Lemma blank_slice a b s : blank s -> blank (slice a b s).
Proof. intros H c I. apply H. eapply in_slice; eauto. Qed.

Lemma carries_blank w l mat mf mt : carries w l mat mf mt -> blank l -> mat = 0 /\ mf = 0 /\ mt = 0.
Proof.
  intros (A & B & C) H.
  destruct A as [[_ ->]|[N _]]; [|exfalso; now apply N, blank_slice].
  destruct B as [[_ ->]|[N _]]; [|exfalso; now apply N, blank_slice].
  destruct C as [[_ ->]|[N _]]; [|exfalso; now apply N, blank_slice]. auto.
Qed.

(** ** Section-end records *)

Lemma num_nonzero_false v : num_nonzero v = false <->
  match v with NInt z => z = 0 | NFlt f | NEndf f _ => exists s, f = S754_zero s end.
Proof.
  destruct v as [z|f|f o]; cbn.
  - rewrite negb_false_iff, Z.eqb_eq. reflexivity.
  - destruct f; split; intros H; try discriminate; eauto; try (destruct H; discriminate).
  - destruct f; split; intros H; try discriminate; eauto; try (destruct H; discriminate).
Qed.

Lemma real_zero_iff ro i l : real_zero ro i l <->
  exists v, read_fort_float ro (field (r_width ro) i l) = Ok v /\ num_nonzero v = false.
Proof.
  unfold real_zero, field. split; intros (v & A & B); exists v; split; auto.
  - now apply num_nonzero_false.
  - now apply num_nonzero_false in B.
Qed.

Lemma int_zero_iff ro i l : int_zero ro i l <-> read_fort_int (field (r_width ro) i l) = Ok 0.
Proof. unfold int_zero, col_int, field. now rewrite read_fort_int_spec. Qed.

Lemma read_send_iff ro l : (exists x, read_send ro [l] 0 = Ok x) <->
  real_zero ro 0 l /\ real_zero ro 1 l /\ int_zero ro 2 l /\ int_zero ro 3 l /\
  int_zero ro 4 l /\ int_zero ro 5 l /\ exists mat mf, carries (r_width ro) l mat mf 0.
Proof.
  rewrite !real_zero_iff, !int_zero_iff. unfold read_send, read_cont.
  change (get_line [l] 0) with (@Ok str l). cbn [bind].
  split.
  - intros (x & H).
    destruct (read_fort_float ro (field _ 0 l)) as [c1|]; [|discriminate]. cbn [bind] in H.
    destruct (read_fort_float ro (field _ 1 l)) as [c2|]; [|discriminate]. cbn [bind] in H.
    destruct (read_fort_int (field _ 2 l)) as [l1|]; [|discriminate]. cbn [bind] in H.
    destruct (read_fort_int (field _ 3 l)) as [l2|]; [|discriminate]. cbn [bind] in H.
    destruct (read_fort_int (field _ 4 l)) as [n1|]; [|discriminate]. cbn [bind] in H.
    destruct (read_fort_int (field _ 5 l)) as [n2|]; [|discriminate]. cbn [bind] in H.
    destruct (read_ctrl ro l) as [[a b c]|] eqn:RC; [|discriminate].
    cbn [bind C1 C2 L1 L2 N1 N2 MT num_nonzero] in H.
    destruct (num_nonzero c1) eqn:Z1; [discriminate|]. destruct (num_nonzero c2) eqn:Z2; [discriminate|].
    cbn [orb] in H.
    destruct (Z.eqb_spec l1 0); [|discriminate]. destruct (Z.eqb_spec l2 0); [|discriminate].
    destruct (Z.eqb_spec n1 0); [|discriminate]. destruct (Z.eqb_spec n2 0); [|discriminate].
    destruct (Z.eqb_spec c 0); [|discriminate]. subst.
    repeat split; eauto. exists a, b. now apply carries_iff.
  - intros ((c1 & -> & Z1) & (c2 & -> & Z2) & -> & -> & -> & -> & mat & mf & C).
    apply carries_iff in C. rewrite C. cbn [bind C1 C2 L1 L2 N1 N2 num_nonzero].
    rewrite Z1, Z2. cbn. eauto.
Qed.

(** ** One step *)

Definition regular (mat mf mt : Z) : Prop := mat <> 0 /\ mf <> 0 /\ mt <> 0.
Definition is_reg (mat mf mt : Z) : bool := negb (mat =? 0) && negb (mf =? 0) && negb (mt =? 0).
Lemma is_reg_iff mat mf mt : is_reg mat mf mt = true <-> regular mat mf mt.
Proof.
  unfold is_reg, regular. rewrite !andb_true_iff, !negb_true_iff, !Z.eqb_neq. tauto.
Qed.

Definition add_regular (st : split_state) mat mf mt line : split_state :=
  {| sec_level := 3; last_mat := mat; last_mf := mf; last_mt := mt;
     sec_dic := dic_append (sec_dic st) mf mt line |}.

Definition level_state (st : split_state) (lv mat mf mt : Z) : Prop :=
  sec_level st = lv /\ (1 <= lv -> last_mat st = mat) /\ (2 <= lv -> last_mf st = mf) /\
  (3 <= lv -> last_mt st = mt).

(** what a step does on a regular line *)
Lemma step_regular ro st l mat mf mt : r_send ro = false -> 0 <= sec_level st ->
  carries (r_width ro) l mat mf mt -> regular mat mf mt ->
  split_step ro st l =
    if ((3 <=? sec_level st) && negb (last_mt st =? mt))
        || ((2 <=? sec_level st) && negb (last_mf st =? mf))
        || ((1 <=? sec_level st) && negb (last_mat st =? mat))
    then Err UnexpectedControlRecordError else Ok (add_regular st mat mf mt l).
Proof.
  intros RS Lv C R. unfold split_step.
  assert (is_blank l = false) as ->.
  { destruct (is_blank l) eqn:B; auto. apply blank_iff in B.
    destruct (carries_blank _ _ _ _ _ C B) as (-> & _). destruct R as [R _]. lia. }
  destruct (Z.eqb_spec (sec_level st) (-1)); [lia|].
  apply carries_iff in C. rewrite C. cbn [bind mkctrl MAT MF MT].
  apply is_reg_iff in R. unfold is_reg in R. rewrite R, RS. cbn [andb negb]. reflexivity.
Qed.

Lemma step_end ro st l mat mf mt : r_send ro = false -> 0 <= sec_level st -> ~ blank l ->
  carries (r_width ro) l mat mf mt -> ~ regular mat mf mt ->
  forall st', split_step ro st l = Ok st' <->
    st' = with_level st (sec_level st - 1) /\ mt = 0 /\
    (2 <= sec_level st -> mat = last_mat st) /\ (sec_level st = 1 -> mat = 0) /\
    (3 <= sec_level st -> mf = last_mf st) /\ (sec_level st < 3 -> mf = 0) /\
    (sec_level st = 0 -> mat = -1) /\ end_record ro l mat mf.
Proof.
  intros RS Lv NB C R st'. unfold split_step.
  assert (is_blank l = false) as ->.
  { destruct (is_blank l) eqn:B; auto. apply blank_iff in B. contradiction. }
  destruct (Z.eqb_spec (sec_level st) (-1)); [lia|].
  pose proof (proj2 (carries_iff ro l mat mf mt) C) as RC. rewrite RC. cbn [bind mkctrl MAT MF MT].
  assert (Rb : is_reg mat mf mt = false).
  { destruct (is_reg mat mf mt) eqn:E; auto. apply is_reg_iff in E. contradiction. }
  unfold is_reg in Rb. rewrite Rb, RS. cbn [andb].
  pose proof (read_send_iff ro l) as RSI.
  split.
  - intros H.
    destruct ((2 <=? sec_level st) && negb (mat =? last_mat st)) eqn:E1; [discriminate|].
    destruct ((sec_level st =? 1) && negb (mat =? 0)) eqn:E2; [discriminate|].
    destruct ((3 <=? sec_level st) && negb (mf =? last_mf st)) eqn:E3; [discriminate|].
    destruct ((sec_level st <? 3) && negb (mf =? 0)) eqn:E4; [discriminate|].
    destruct ((sec_level st =? 0) && negb (mat =? -1)) eqn:E5; [discriminate|].
    destruct (read_send ro [l] 0) as [x|] eqn:RE; [|discriminate]. cbn [bind] in H.
    destruct (proj1 RSI (ex_intro _ x eq_refl)) as (Z1 & Z2 & Z3 & Z4 & Z5 & Z6 & a & b & C').
    destruct (carries_fun _ _ _ _ _ _ _ _ C C') as (<- & <- & ->).
    inversion H; subst. split; [reflexivity|]. split; [reflexivity|].
    rewrite andb_false_iff in *. rewrite !negb_false_iff in *. rewrite !Z.eqb_eq in *.
    rewrite Z.leb_gt in *. rewrite Z.ltb_ge in *. rewrite Z.eqb_neq in *.
    repeat split; try lia; auto; apply C.
  - intros (-> & -> & H1 & H2 & H3 & H4 & H5 & NB' & C' & Z1 & Z2 & Z3 & Z4 & Z5 & Z6).
    assert ((2 <=? sec_level st) && negb (mat =? last_mat st) = false) as ->.
    { apply andb_false_iff. rewrite Z.leb_gt, negb_false_iff, Z.eqb_eq. lia. }
    assert ((sec_level st =? 1) && negb (mat =? 0) = false) as ->.
    { apply andb_false_iff. rewrite Z.eqb_neq, negb_false_iff, Z.eqb_eq. lia. }
    assert ((3 <=? sec_level st) && negb (mf =? last_mf st) = false) as ->.
    { apply andb_false_iff. rewrite Z.leb_gt, negb_false_iff, Z.eqb_eq. lia. }
    assert ((sec_level st <? 3) && negb (mf =? 0) = false) as ->.
    { apply andb_false_iff. rewrite Z.ltb_ge, negb_false_iff, Z.eqb_eq. lia. }
    assert ((sec_level st =? 0) && negb (mat =? -1) = false) as ->.
    { apply andb_false_iff. rewrite Z.eqb_neq, negb_false_iff, Z.eqb_eq. lia. }
    destruct (proj2 RSI) as (x & ->); [repeat (split; [assumption|]); eauto|]. reflexivity.
Qed.

Lemma step_ctrl ro st l st' : sec_level st <> -1 -> is_blank l = false -> split_step ro st l = Ok st' ->
  exists mat mf mt, carries (r_width ro) l mat mf mt.
Proof.
  intros Lv NB. unfold split_step. rewrite NB. destruct (Z.eqb_spec (sec_level st) (-1)); [contradiction|].
  destruct (read_ctrl ro l) as [[a b c]|] eqn:E; [|discriminate]. intros _. exists a, b, c. now apply carries_iff.
Qed.

Lemma step_blank ro st l : is_blank l = true -> 0 <= sec_level st -> r_blank ro = false ->
  split_step ro st l = Err BlankLineError.
Proof.
  intros B Lv RB. unfold split_step. rewrite B, RB. destruct (Z.eqb_spec (sec_level st) (-1)); [lia|]. reflexivity.
Qed.

Lemma regular_dec mat mf mt : regular mat mf mt \/ ~ regular mat mf mt.
Proof. destruct (is_reg mat mf mt) eqn:E; [left|right; intros H]; [now apply is_reg_iff|apply is_reg_iff in H; congruence]. Qed.

Lemma blank_dec l : blank l \/ ~ blank l.
Proof. destruct (is_blank l) eqn:B; [left; now apply blank_iff|right; intros H; apply blank_iff in H; congruence]. Qed.
Lemma not_blank_is l : ~ blank l -> is_blank l = false.
Proof. intros H. destruct (is_blank l) eqn:B; auto. apply blank_iff in B. contradiction. Qed.

(** ** Remaining input at each level *)

Definition G0 (ro : ropts) (lines : list str) : Prop :=
  exists mats tend rest, lines = concat (map material_lines mats) ++ tend :: rest /\
    Forall (material_ok ro) mats /\ end_record ro tend (-1) 0 /\ Forall blank rest.
Definition G1 ro mat (lines : list str) : Prop :=
  exists files mend r, lines = concat (map file_lines files) ++ mend :: r /\
    Forall (file_ok ro mat) files /\ end_record ro mend 0 0 /\ G0 ro r.
Definition G2 ro mat mf (lines : list str) : Prop :=
  exists secs fend r, lines = concat (map section_lines secs) ++ fend :: r /\
    Forall (section_ok ro mat mf) secs /\ end_record ro fend mat 0 /\ G1 ro mat r.
Definition G3 ro mat mf mt (lines : list str) : Prop :=
  exists body send r, lines = body ++ send :: r /\
    Forall (fun l => carries (r_width ro) l mat mf mt) body /\ end_record ro send mat mf /\ G2 ro mat mf r.

Ltac lines_eq := unfold material_lines, file_lines, section_lines; cbn;
  repeat (progress (repeat rewrite <- app_assoc; cbn)); reflexivity.

Lemma G3_G2 ro mat mf mt l r : carries (r_width ro) l mat mf mt -> mt <> 0 -> G3 ro mat mf mt r -> G2 ro mat mf (l :: r).
Proof.
  intros C N (body & send & r' & -> & F & E & secs & fend & r2 & -> & F2 & E2 & H).
  exists ({| s_mt := mt; s_body := l :: body; s_send := send |} :: secs), fend, r2.
  split; [|split; [|split]]; auto.
  - lines_eq.
  - constructor; auto. split; [exact N|]. split; [discriminate|]. split; [constructor; auto|exact E].
Qed.

Lemma G3_G1 ro mat mf mt l r : carries (r_width ro) l mat mf mt -> mt <> 0 -> mf <> 0 ->
  G3 ro mat mf mt r -> G1 ro mat (l :: r).
Proof.
  intros C N Nf (body & send & r' & -> & F & E & secs & fend & r2 & -> & F2 & E2 & files & mend & r3 & -> & F3 & E3 & H).
  exists ({| f_mf := mf; f_secs := {| s_mt := mt; s_body := l :: body; s_send := send |} :: secs; f_fend := fend |} :: files), mend, r3.
  split; [|split; [|split]]; auto.
  - lines_eq.
  - constructor; auto. split; [exact Nf|]. split; [discriminate|]. split; [|exact E2].
    constructor; auto. split; [exact N|]. split; [discriminate|]. split; [constructor; auto|exact E].
Qed.

Lemma G3_G0 ro mat mf mt l r : carries (r_width ro) l mat mf mt -> mt <> 0 -> mf <> 0 -> mat <> 0 ->
  G3 ro mat mf mt r -> G0 ro (l :: r).
Proof.
  intros C N Nf Nm G. destruct (G3_G1 ro mat mf mt l r C N Nf G) as (files & mend & r3 & EQ & F3 & E3 & mats & tend & rest & -> & F4 & E4 & B).
  exists ({| m_mat := mat; m_files := files; m_mend := mend |} :: mats), tend, rest.
  split; [|split; [|split]]; auto.
  - rewrite EQ. lines_eq.
  - constructor; auto. split; [exact Nm|]. split; [|split; auto].
    cbn. intros ->. cbn in EQ. inversion EQ; subst. destruct E3 as (_ & C' & _).
    destruct (carries_fun _ _ _ _ _ _ _ _ C C') as (-> & _). contradiction.
Qed.

Lemma loop_trailing ro : forall lines st st', sec_level st = -1 ->
  split_loop ro st lines = Ok st' -> Forall blank lines /\ st' = st.
Proof.
  induction lines as [|l r IH]; intros st st' Lv H; cbn in H.
  - inversion H; auto.
  - unfold split_step in H. rewrite Lv in H. destruct (is_blank l) eqn:B; [|discriminate].
    cbn in H. destruct (IH st st' Lv H) as [F ->]. split; auto. constructor; auto. now apply blank_iff.
Qed.

Lemma loop_structure ro : r_blank ro = false -> r_send ro = false ->
  forall lines st st', split_loop ro st lines = Ok st' -> sec_level st' = -1 ->
  let mat := last_mat st in let mf := last_mf st in let mt := last_mt st in
  (sec_level st = 0 -> G0 ro lines) /\
  (sec_level st = 1 -> mat <> 0 -> G1 ro mat lines) /\
  (sec_level st = 2 -> mat <> 0 -> mf <> 0 -> G2 ro mat mf lines) /\
  (sec_level st = 3 -> mat <> 0 -> mf <> 0 -> mt <> 0 -> G3 ro mat mf mt lines).
Proof.
  intros RB RS. induction lines as [|l r IH]; intros st st' H Lv' mat mf mt.
  { cbn in H. inversion H; subst. repeat split; intros; lia. }
  cbn [split_loop] in H. destruct (split_step ro st l) as [st1|] eqn:ST; [|discriminate]. cbn [bind] in H.
  specialize (IH st1 st' H Lv'). cbv zeta in IH. destruct IH as (I0 & I1 & I2 & I3).
  assert (D : 0 <= sec_level st -> (exists a b c, carries (r_width ro) l a b c /\ regular a b c /\
       st1 = add_regular st a b c l /\
       (3 <= sec_level st -> last_mt st = c) /\ (2 <= sec_level st -> last_mf st = b) /\
       (1 <= sec_level st -> last_mat st = a)) \/
     (exists a b, end_record ro l a b /\ st1 = with_level st (sec_level st - 1) /\
      (2 <= sec_level st -> a = last_mat st) /\ (sec_level st = 1 -> a = 0) /\
      (3 <= sec_level st -> b = last_mf st) /\ (sec_level st < 3 -> b = 0) /\ (sec_level st = 0 -> a = -1))).
  { intros Lv. destruct (blank_dec l) as [B|NB].
    { apply blank_iff in B. rewrite step_blank in ST by auto. discriminate. }
    destruct (step_ctrl ro st l st1 ltac:(lia) (not_blank_is l NB) ST) as (a & b & c & C).
    destruct (regular_dec a b c) as [R|R].
    - left. exists a, b, c. rewrite (step_regular ro st l a b c) in ST by auto.
      destruct (_ || _) eqn:O in ST; [discriminate|]. inversion ST; subst.
      apply orb_false_iff in O as [O O3]. apply orb_false_iff in O as [O1 O2].
      rewrite andb_false_iff, Z.leb_gt, negb_false_iff, Z.eqb_eq in *. repeat split; auto; try apply C; try apply R; lia.
    - right. apply (step_end ro st l a b c) in ST; auto.
      destruct ST as (-> & -> & H1 & H2 & H3 & H4 & H5 & E). exists a, b. auto 10. }
  repeat split.
  - intros Lv. destruct (D ltac:(lia)) as [(a & b & c & C & R & -> & _)|(a & b & E & -> & H1 & H2 & H3 & H4 & H5)].
    + destruct R as (Ra & Rb & Rc). apply (G3_G0 ro a b c); auto.
    + rewrite (H4 ltac:(lia)), (H5 Lv) in E.
      assert (L1 : sec_level (with_level st (sec_level st - 1)) = -1) by (cbn; lia).
      destruct (loop_trailing ro r _ _ L1 H) as [F _]. exists [], l, r. auto.
  - intros Lv Nm. destruct (D ltac:(lia)) as [(a & b & c & C & R & -> & H3 & H2 & H1)|(a & b & E & -> & H1 & H2 & H3 & H4 & H5)].
    + destruct R as (Ra & Rb & Rc). unfold mat. rewrite (H1 ltac:(lia)). apply (G3_G1 ro a b c); auto.
    + rewrite (H4 ltac:(lia)), (H2 Lv) in E. exists [], l, r. split; [reflexivity|].
      split; [constructor|]. split; [exact E|]. apply I0. cbn. lia.
  - intros Lv Nm Nf. destruct (D ltac:(lia)) as [(a & b & c & C & R & -> & H3 & H2 & H1)|(a & b & E & -> & H1 & H2 & H3 & H4 & H5)].
    + destruct R as (Ra & Rb & Rc). unfold mat, mf. rewrite (H1 ltac:(lia)), (H2 ltac:(lia)).
      apply (G3_G2 ro a b c); auto.
    + rewrite (H4 ltac:(lia)), (H1 ltac:(lia)) in E. exists [], l, r. split; [reflexivity|].
      split; [constructor|]. split; [exact E|]. apply I1; auto. cbn. lia.
  - intros Lv Nm Nf Nt. destruct (D ltac:(lia)) as [(a & b & c & C & R & -> & H3 & H2 & H1)|(a & b & E & -> & H1 & H2 & H3 & H4 & H5)].
    + destruct R as (Ra & Rb & Rc). unfold mat, mf, mt. rewrite (H1 ltac:(lia)), (H2 ltac:(lia)), (H3 ltac:(lia)).
      destruct (I3 eq_refl Ra Rb Rc) as (body & send & r' & -> & F & E & G).
      exists (l :: body), send, r'. split; [reflexivity|]. split; [constructor; auto|]. auto.
    + rewrite (H3 ltac:(lia)), (H1 ltac:(lia)) in E. exists [], l, r. split; [reflexivity|].
      split; [constructor|]. split; [exact E|]. apply I2; auto. cbn. lia.
Qed.

(** ** Accepting well-formed input *)

Lemma split_loop_app ro a : forall st b, split_loop ro st (a ++ b) = do st1 <- split_loop ro st a; split_loop ro st1 b.
Proof.
  induction a as [|l a IH]; intros st b; [reflexivity|]. cbn [app split_loop].
  destruct (split_step ro st l); cbn [bind]; auto.
Qed.

(** the dictionary gets exactly the lines added *)
Definition add_lines (mf mt : Z) (ls : list str) (d : mfdic (list str)) : mfdic (list str) :=
  fold_left (fun d l => dic_append d mf mt l) ls d.

Definition mkst (lv mat mf mt : Z) d : split_state :=
  {| sec_level := lv; last_mat := mat; last_mf := mf; last_mt := mt; sec_dic := d |}.

Lemma loop_body ro mat mf mt : r_send ro = false -> regular mat mf mt ->
  forall body d, Forall (fun l => carries (r_width ro) l mat mf mt) body ->
  split_loop ro (mkst 3 mat mf mt d) body = Ok (mkst 3 mat mf mt (add_lines mf mt body d)).
Proof.
  intros RS R. induction body as [|l body IH]; intros d F; [reflexivity|].
  inversion F; subst. cbn [split_loop]. rewrite (step_regular ro _ l mat mf mt) by (auto; cbn; lia).
  cbn [sec_level last_mt last_mf last_mat mkst]. rewrite !Z.eqb_refl. cbn [negb andb orb].
  rewrite !andb_false_r. cbn [orb bind]. apply IH. auto.
Qed.

Lemma step_end_ok ro st l mat mf : r_send ro = false -> 0 <= sec_level st -> end_record ro l mat mf ->
  (2 <= sec_level st -> mat = last_mat st) -> (sec_level st = 1 -> mat = 0) ->
  (3 <= sec_level st -> mf = last_mf st) -> (sec_level st < 3 -> mf = 0) ->
  (sec_level st = 0 -> mat = -1) ->
  split_step ro st l = Ok (with_level st (sec_level st - 1)).
Proof.
  intros RS Lv E H1 H2 H3 H4 H5. pose proof E as (NB & C & _).
  apply (step_end ro st l mat mf 0); auto. 2:{ auto 10. }
  intros (_ & _ & X). lia.
Qed.

Definition sec_dict mf (d : mfdic (list str)) (s : tsection) := add_lines mf (s_mt s) (s_body s) d.
Definition file_dict d (f : tfile) := fold_left (sec_dict (f_mf f)) (f_secs f) d.
Definition mat_dict d (m : tmaterial) := fold_left file_dict (m_files m) d.

(** from any level at which a section may start *)
Lemma loop_section ro mat mf s st : r_send ro = false -> mat <> 0 -> mf <> 0 -> section_ok ro mat mf s ->
  0 <= sec_level st < 3 -> (1 <= sec_level st -> last_mat st = mat) -> (2 <= sec_level st -> last_mf st = mf) ->
  split_loop ro st (section_lines s) = Ok (mkst 2 mat mf (s_mt s) (sec_dict mf (sec_dic st) s)).
Proof.
  intros RS Nm Nf (Nt & NB & F & E) Lv H1 H2. unfold section_lines, sec_dict.
  destruct (s_body s) as [|l body] eqn:EB; [contradiction|]. inversion F as [|? ? C F']; subst.
  cbn [app split_loop]. rewrite (step_regular ro st l mat mf (s_mt s)) by (auto; try lia; repeat split; auto).
  assert (((3 <=? sec_level st) && negb (last_mt st =? s_mt s)
     || (2 <=? sec_level st) && negb (last_mf st =? mf)
     || (1 <=? sec_level st) && negb (last_mat st =? mat)) = false) as ->.
  { rewrite !orb_false_iff, !andb_false_iff, !Z.leb_gt, !negb_false_iff, !Z.eqb_eq. lia. }
  cbn [bind]. rewrite split_loop_app.
  change (add_regular st mat mf (s_mt s) l) with (mkst 3 mat mf (s_mt s) (dic_append (sec_dic st) mf (s_mt s) l)).
  rewrite loop_body by (auto; repeat split; auto). cbn [bind split_loop].
  rewrite (step_end_ok ro _ (s_send s) mat mf) by (auto; cbn; lia). reflexivity.
Qed.

Lemma loop_sections ro mat mf : r_send ro = false -> mat <> 0 -> mf <> 0 ->
  forall secs st, secs <> [] -> Forall (section_ok ro mat mf) secs ->
  0 <= sec_level st < 3 -> (1 <= sec_level st -> last_mat st = mat) -> (2 <= sec_level st -> last_mf st = mf) ->
  exists mt, split_loop ro st (concat (map section_lines secs)) =
    Ok (mkst 2 mat mf mt (fold_left (sec_dict mf) secs (sec_dic st))).
Proof.
  intros RS Nm Nf. induction secs as [|s secs IH]; intros st N F Lv H1 H2; [contradiction|].
  inversion F; subst. cbn [map concat fold_left]. rewrite split_loop_app.
  rewrite (loop_section ro mat mf s st) by auto. cbn [bind].
  destruct secs as [|s2 secs].
  - eexists. reflexivity.
  - apply (IH (mkst 2 mat mf (s_mt s) (sec_dict mf (sec_dic st) s))); auto; try discriminate; cbn; lia.
Qed.

Lemma loop_file ro mat f st : r_send ro = false -> mat <> 0 -> file_ok ro mat f ->
  0 <= sec_level st < 2 -> (1 <= sec_level st -> last_mat st = mat) ->
  exists mt, split_loop ro st (file_lines f) = Ok (mkst 1 mat (f_mf f) mt (file_dict (sec_dic st) f)).
Proof.
  intros RS Nm (Nf & N & F & E) Lv H1. unfold file_lines, file_dict. rewrite split_loop_app.
  destruct (loop_sections ro mat (f_mf f) RS Nm Nf (f_secs f) st N F ltac:(lia) H1 ltac:(lia)) as (mt & ->).
  exists mt. cbn [bind split_loop]. rewrite (step_end_ok ro _ (f_fend f) mat 0) by (auto; cbn; lia). reflexivity.
Qed.

Lemma loop_files ro mat : r_send ro = false -> mat <> 0 ->
  forall files st, files <> [] -> Forall (file_ok ro mat) files ->
  0 <= sec_level st < 2 -> (1 <= sec_level st -> last_mat st = mat) ->
  exists mf mt, split_loop ro st (concat (map file_lines files)) =
    Ok (mkst 1 mat mf mt (fold_left file_dict files (sec_dic st))).
Proof.
  intros RS Nm. induction files as [|f files IH]; intros st N F Lv H1; [contradiction|].
  inversion F; subst. cbn [map concat fold_left]. rewrite split_loop_app.
  destruct (loop_file ro mat f st RS Nm) as (mt & ->); auto. cbn [bind].
  destruct files as [|f2 files].
  - eexists; eexists; reflexivity.
  - apply (IH (mkst 1 mat (f_mf f) mt (file_dict (sec_dic st) f))); auto; try discriminate; cbn; lia.
Qed.

Lemma loop_material ro m st : r_send ro = false -> material_ok ro m -> sec_level st = 0 ->
  exists mf mt, split_loop ro st (material_lines m) = Ok (mkst 0 (m_mat m) mf mt (mat_dict (sec_dic st) m)).
Proof.
  intros RS (Nm & N & F & E) Lv. unfold material_lines, mat_dict. rewrite split_loop_app.
  destruct (loop_files ro (m_mat m) RS Nm (m_files m) st N F ltac:(lia) ltac:(lia)) as (mf & mt & ->).
  exists mf, mt. cbn [bind split_loop]. rewrite (step_end_ok ro _ (m_mend m) 0 0) by (auto; cbn; lia). reflexivity.
Qed.

Lemma loop_materials ro : r_send ro = false -> forall mats st, Forall (material_ok ro) mats -> sec_level st = 0 ->
  exists mat mf mt, split_loop ro st (concat (map material_lines mats)) =
    Ok (mkst 0 mat mf mt (fold_left mat_dict mats (sec_dic st))).
Proof.
  intros RS. induction mats as [|m mats IH]; intros st F Lv.
  - exists (last_mat st), (last_mf st), (last_mt st). cbn. destruct st; cbn in *; subst. reflexivity.
  - inversion F; subst. cbn [map concat fold_left]. rewrite split_loop_app.
    destruct (loop_material ro m st RS) as (mf & mt & ->); auto. cbn [bind].
    apply (IH (mkst 0 (m_mat m) mf mt (mat_dict (sec_dic st) m))); auto.
Qed.

Lemma loop_blank ro : forall rest st, Forall blank rest -> sec_level st = -1 -> split_loop ro st rest = Ok st.
Proof.
  induction rest as [|l r IH]; intros st F Lv; [reflexivity|]. inversion F; subst. cbn [split_loop].
  unfold split_step.
  assert (is_blank l = true) as -> by now apply blank_iff.
  rewrite Lv. cbn. apply IH; auto.
Qed.

Definition tape_dict (t : tape) : mfdic (list str) :=
  fold_left mat_dict (t_mats t) [(0, [(0, [t_head t])])].

Lemma split_tape ro t : r_send ro = false -> tape_ok ro t ->
  split_sections ro (tape_lines t) = Ok (tape_dict t).
Proof.
  intros RS (NB & (mat & C) & F & E & B). unfold split_sections, tape_lines.
  cbn [skip_leading_blank]. rewrite (not_blank_is _ NB). cbn [bind].
  change (get_line (t_head t :: ?r) 0) with (@Ok str (t_head t)). cbn [bind].
  apply carries_iff in C. unfold get_line. cbn [nth_error bind]. rewrite C.
  cbn [bind mkctrl MF MT]. cbn [negb orb]. rewrite !Z.eqb_refl. cbn [negb orb tl].
  rewrite split_loop_app.
  set (st0 := {| sec_level := 0 |}).
  destruct (loop_materials ro RS (t_mats t) st0 F eq_refl) as (a & b & c & ->). cbn [bind split_loop].
  rewrite (step_end_ok ro _ (t_tend t) (-1) 0) by (auto; cbn; lia). cbn [bind].
  rewrite loop_blank by auto. cbn [bind sec_level with_level mkst]. 
  rewrite RS. reflexivity.
Qed.

Lemma split_sound ro lines d : strict ro -> split_sections ro lines = Ok d ->
  exists t, tape_ok ro t /\ lines = tape_lines t.
Proof.
  intros (RB & RS & RT) H. unfold split_sections in H.
  destruct lines as [|l0 rest]; [discriminate|]. cbn [skip_leading_blank] in H.
  rewrite RB in H. destruct (is_blank l0) eqn:B0; [discriminate|]. cbn [bind] in H.
  unfold get_line in H. cbn [nth_error bind] in H.
  destruct (read_ctrl ro l0) as [[a b c]|] eqn:RC; [|discriminate]. cbn [bind MF MT] in H.
  destruct (Z.eqb_spec b 0) as [->|]; [|cbn in H; rewrite RT in H; discriminate].
  destruct (Z.eqb_spec c 0) as [->|]; [|cbn in H; rewrite RT in H; discriminate].
  cbn [negb orb tl] in H.
  destruct (split_loop ro _ rest) as [st|] eqn:SL; [|discriminate]. cbn [bind] in H.
  rewrite RS in H. cbn [negb andb] in H. destruct (Z.leb_spec 0 (sec_level st)) as [|Lv]; [discriminate|].
  assert (Lv' : sec_level st = -1).
  { clear H. assert (G : forall ls s s', split_loop ro s ls = Ok s' -> -1 <= sec_level s -> -1 <= sec_level s').
    { clear - RS. induction ls as [|l r IH]; intros s s' H Hs; cbn [split_loop] in H; [now inversion H; subst|].
      destruct (split_step ro s l) as [s1|] eqn:E; [|discriminate]. cbn [bind] in H. apply (IH s1 s' H).
      unfold split_step in E.
      destruct (is_blank l); [destruct (sec_level s =? -1); [|destruct (r_blank ro)]; inversion E; subst; auto|].
      destruct (Z.eqb_spec (sec_level s) (-1)); [discriminate|].
      destruct (read_ctrl ro l); [|discriminate]. cbn [bind] in E.
      repeat match type of E with (if ?x then _ else _) = _ => destruct x; try discriminate end;
        try (inversion E; subst; cbn; lia).
      destruct (read_send ro [l] 0); [|discriminate]. inversion E; subst. cbn. lia. }
    specialize (G _ _ _ SL). cbn in G. lia. }
  destruct (loop_structure ro RB RS rest _ st SL Lv') as [G _].
  destruct (G eq_refl) as (mats & tend & trail & -> & F & E & Bl).
  exists {| t_head := l0; t_mats := mats; t_tend := tend; t_rest := trail |}.
  split; [|reflexivity]. repeat split; auto; try apply E.
  - cbn. intros X. apply blank_iff in X. congruence.
  - exists a. now apply carries_iff.
Qed.

Lemma split_accepts_iff ro lines : strict ro ->
  (exists d, split_sections ro lines = Ok d) <-> (exists t, tape_ok ro t /\ lines = tape_lines t).
Proof.
  intros S. split.
  - intros (d & H). eapply split_sound; eauto.
  - intros (t & T & ->). exists (tape_dict t). apply split_tape; auto. apply S.
Qed.

(** ** The dictionary returned *)

Lemma zget_zset {A} k k' (v : A) d : zget k' (zset k v d) = if k' =? k then Some v else zget k' d.
Proof.
  induction d as [|[k1 v1] d IH]; cbn.
  - destruct (k' =? k); reflexivity.
  - destruct (Z.eqb_spec k k1) as [->|]; cbn.
    + destruct (k' =? k1); reflexivity.
    + rewrite IH. destruct (Z.eqb_spec k' k1); destruct (Z.eqb_spec k' k); subst; congruence || reflexivity.
Qed.

Lemma zset_keys {A} k (v : A) d x : In x (map fst (zset k v d)) <-> x = k \/ In x (map fst d).
Proof.
  induction d as [|[k1 v1] d IH]; cbn; [intuition|]. destruct (Z.eqb_spec k k1) as [->|]; cbn; [intuition|].
  rewrite IH. tauto.
Qed.

Lemma zset_dict {A} k (v : A) d : is_dict d -> is_dict (zset k v d).
Proof.
  unfold is_dict. induction d as [|[k1 v1] d IH]; cbn; intros H.
  - constructor; [intros []|constructor].
  - inversion H; subst. destruct (Z.eqb_spec k k1) as [->|]; cbn; [auto|].
    constructor; auto. rewrite zset_keys. intros [->|]; auto.
Qed.

Lemma zset_in {A} k (v : A) d x y : In (x, y) (zset k v d) -> (x, y) = (k, v) \/ In (x, y) d.
Proof.
  induction d as [|[k1 v1] d IH]; cbn.
  - intros [H|[]]; auto.
  - destruct (Z.eqb_spec k k1) as [->|]; cbn; intuition.
Qed.

Lemma zget_in {A} k (v : A) d : zget k d = Some v -> In (k, v) d.
Proof.
  induction d as [|[k1 v1] d IH]; cbn; [discriminate|].
  destruct (Z.eqb_spec k k1) as [->|]; intros H; [inversion H; auto|auto].
Qed.

Lemma in_zget {A} k (v : A) d : is_dict d -> In (k, v) d -> zget k d = Some v.
Proof.
  unfold is_dict. induction d as [|[k1 v1] d IH]; cbn; [contradiction|]. intros N I. inversion N; subst.
  destruct (Z.eqb_spec k k1) as [->|D]; destruct I as [E|I].
  - inversion E; auto.
  - exfalso. apply H1. now apply (in_map fst) in I.
  - inversion E; congruence.
  - auto.
Qed.

Definition lookup2 {A} (d : mfdic A) mf mt : option A :=
  match zget mf d with Some s => zget mt s | None => None end.

Lemma holds_lookup {A} (d : mfdic A) mf mt v : is_dict2 d -> (holds d mf mt v <-> lookup2 d mf mt = Some v).
Proof.
  intros [H1 H2]. unfold holds, lookup2. split.
  - intros (sub & I & J). rewrite (in_zget mf sub) by auto. apply in_zget; eauto.
  - destruct (zget mf d) as [s|] eqn:E; [|discriminate]. intros H. exists s. split; now apply zget_in.
Qed.

Definition lines_of (d : mfdic (list str)) mf mt : list str :=
  match lookup2 d mf mt with Some l => l | None => [] end.

Lemma lookup_append d mf mt l mf' mt' :
  lookup2 (dic_append d mf mt l) mf' mt' =
  if (mf' =? mf) && (mt' =? mt) then Some (lines_of d mf mt ++ [l]) else lookup2 d mf' mt'.
Proof.
  unfold dic_append, lookup2, lines_of. rewrite zget_zset.
  destruct (Z.eqb_spec mf' mf) as [->|]; cbn [andb]; [|reflexivity].
  rewrite zget_zset. destruct (Z.eqb_spec mt' mt) as [->|]; cbn [andb].
  - unfold lookup2. destruct (zget mf d); reflexivity.
  - destruct (zget mf d); reflexivity.
Qed.

(** invariant of the dictionary *)
Definition good_dict (d : mfdic (list str)) : Prop :=
  is_dict2 d /\ forall mf mt l, lookup2 d mf mt = Some l -> l <> [].

Lemma good_append d mf mt l : good_dict d -> good_dict (dic_append d mf mt l).
Proof.
  intros [[H1 H2] H3]. split; [split|].
  - now apply zset_dict.
  - intros mf' sub I. apply zset_in in I as [E|I]; [|eauto]. inversion E; subst.
    apply zset_dict. destruct (zget mf d) eqn:G; [|constructor]. apply zget_in in G. eauto.
  - intros mf' mt' ls. rewrite lookup_append. destruct (_ && _); [|apply H3].
    intros H; inversion H. destruct (lines_of d mf mt); discriminate.
Qed.

Lemma lines_append d mf mt l mf' mt' :
  lines_of (dic_append d mf mt l) mf' mt' =
  lines_of d mf' mt' ++ (if (mf =? mf') && (mt =? mt') then [l] else []).
Proof.
  unfold lines_of at 1. rewrite lookup_append, (Z.eqb_sym mf' mf), (Z.eqb_sym mt' mt).
  destruct (Z.eqb_spec mf mf') as [->|]; destruct (Z.eqb_spec mt mt') as [->|]; cbn [andb];
    try reflexivity; now rewrite app_nil_r.
Qed.

Lemma good_lines mf mt : forall ls d, good_dict d -> good_dict (add_lines mf mt ls d).
Proof. induction ls as [|l ls IH]; intros d G; cbn; auto. apply IH, good_append, G. Qed.

Lemma lines_lines mf mt mf' mt' : forall ls d,
  lines_of (add_lines mf mt ls d) mf' mt' =
  lines_of d mf' mt' ++ (if (mf =? mf') && (mt =? mt') then ls else []).
Proof.
  induction ls as [|l ls IH]; intros d; cbn [add_lines fold_left].
  - destruct (_ && _); now rewrite app_nil_r.
  - fold (add_lines mf mt ls (dic_append d mf mt l)). rewrite IH, lines_append, <- app_assoc.
    destruct (_ && _); reflexivity.
Qed.

Definition pick_sec (mt : Z) (s : tsection) : list str := if s_mt s =? mt then s_body s else [].
Definition pick_file (mf mt : Z) (f : tfile) : list str :=
  if f_mf f =? mf then concat (map (pick_sec mt) (f_secs f)) else [].
Definition pick_mat (mf mt : Z) (m : tmaterial) : list str := concat (map (pick_file mf mt) (m_files m)).

Lemma file_dict_spec f d : good_dict d -> good_dict (file_dict d f) /\
  forall mf mt, lines_of (file_dict d f) mf mt = lines_of d mf mt ++ pick_file mf mt f.
Proof.
  unfold file_dict, pick_file. generalize (f_secs f) as secs. intros secs. revert d.
  induction secs as [|s secs IH]; intros d G; cbn [fold_left map concat].
  - split; auto. intros. destruct (_ =? _); now rewrite app_nil_r.
  - destruct (IH (sec_dict (f_mf f) d s)) as [G' L]; [now apply good_lines|]. split; auto.
    intros mf mt. rewrite L. unfold sec_dict. rewrite lines_lines, <- app_assoc. f_equal.
    unfold pick_sec at 2. destruct (f_mf f =? mf), (s_mt s =? mt); reflexivity.
Qed.

Lemma mat_dict_spec m d : good_dict d -> good_dict (mat_dict d m) /\
  forall mf mt, lines_of (mat_dict d m) mf mt = lines_of d mf mt ++ pick_mat mf mt m.
Proof.
  unfold mat_dict, pick_mat. generalize (m_files m) as fs. intros fs. revert d.
  induction fs as [|f fs IH]; intros d G; cbn [fold_left map concat].
  - split; auto. intros. now rewrite app_nil_r.
  - destruct (file_dict_spec f d G) as [G1 L1]. destruct (IH _ G1) as [G' L]. split; auto.
    intros mf mt. now rewrite L, L1, <- app_assoc.
Qed.

Lemma mats_dict_spec ms : forall d, good_dict d -> good_dict (fold_left mat_dict ms d) /\
  forall mf mt, lines_of (fold_left mat_dict ms d) mf mt = lines_of d mf mt ++ concat (map (pick_mat mf mt) ms).
Proof.
  induction ms as [|m ms IH]; intros d G; cbn [fold_left map concat].
  - split; auto. intros. now rewrite app_nil_r.
  - destruct (mat_dict_spec m d G) as [G1 L1]. destruct (IH _ G1) as [G' L]. split; auto.
    intros mf mt. now rewrite L, L1, <- app_assoc.
Qed.

Lemma head_dict_good l : good_dict [(0, [(0, [l])])].
Proof.
  split; [split|].
  - constructor; [intros []|constructor].
  - intros mf sub [E|[]]. inversion E. constructor; [intros []|constructor].
  - intros mf mt ls. unfold lookup2. cbn. destruct (mf =? 0); [|discriminate]. cbn.
    destruct (mt =? 0); [|discriminate]. intros H; inversion H. discriminate.
Qed.

Lemma concat_nil {A} (ls : list (list A)) : Forall (fun l => l = []) ls -> concat ls = [].
Proof. induction 1; cbn; auto. now subst. Qed.

Lemma pick_zero ro mt ms : Forall (material_ok ro) ms -> concat (map (pick_mat 0 mt) ms) = [].
Proof.
  intros F. apply concat_nil. apply Forall_map. eapply Forall_impl; [|exact F].
  intros m (_ & _ & Ff & _). unfold pick_mat. apply concat_nil, Forall_map.
  eapply Forall_impl; [|exact Ff]. intros f (Nf & _). unfold pick_file.
  destruct (Z.eqb_spec (f_mf f) 0); [contradiction|reflexivity].
Qed.

Lemma tape_dict_spec ro t : tape_ok ro t -> good_dict (tape_dict t) /\
  forall mf mt, lines_of (tape_dict t) mf mt = tape_section t mf mt.
Proof.
  intros (_ & _ & F & _). unfold tape_dict.
  destruct (mats_dict_spec (t_mats t) _ (head_dict_good (t_head t))) as [G L]. split; auto.
  intros mf mt. rewrite L. unfold tape_section.
  change (concat (map (fun m => concat (map (fun f => if f_mf f =? mf then
      concat (map (fun s => if s_mt s =? mt then s_body s else []) (f_secs f)) else []) (m_files m))) (t_mats t)))
    with (concat (map (pick_mat mf mt) (t_mats t))).
  unfold lines_of, lookup2. cbn [zget]. destruct (Z.eqb_spec mf 0) as [->|]; cbn [andb zget]; [|reflexivity].
  rewrite (pick_zero ro) by auto. destruct (mt =? 0); cbn; [now rewrite ?app_nil_r|reflexivity].
Qed.

Lemma split_contents ro lines d : strict ro -> split_sections ro lines = Ok d ->
  exists t, tape_ok ro t /\ lines = tape_lines t /\ is_dict2 d /\
    forall mf mt ls, holds d mf mt ls <-> (ls = tape_section t mf mt /\ ls <> []).
Proof.
  intros S H. destruct (split_sound ro lines d S H) as (t & T & ->). exists t.
  rewrite split_tape in H by (auto; apply S). inversion H; subst d.
  destruct (tape_dict_spec ro t T) as [[G1 G2] L]. split; [auto|]. split; [auto|]. split; [auto|].
  intros mf mt ls. rewrite holds_lookup by auto. rewrite <- L. unfold lines_of.
  destruct (lookup2 (tape_dict t) mf mt) as [x|] eqn:E; split.
  - intros X; inversion X; subst. split; auto. eapply G2; eauto.
  - intros [-> _]; reflexivity.
  - discriminate.
  - intros [-> N]; contradiction.
Qed.

(** ** Lenient reading *)

Definition same_fields (ro ro' : ropts) : Prop :=
  r_spaces ro = r_spaces ro' /\ r_width ro = r_width ro' /\ r_preserve ro = r_preserve ro'.

Lemma read_ctrl_fields ro ro' l : same_fields ro ro' -> read_ctrl ro l = read_ctrl ro' l.
Proof. intros (_ & W & _). unfold read_ctrl. now rewrite W. Qed.

Lemma read_float_fields ro ro' s : same_fields ro ro' -> read_fort_float ro s = read_fort_float ro' s.
Proof. intros (A & W & P). unfold read_fort_float. now rewrite A, W, P. Qed.

Lemma read_cont_fields ro ro' ls n : same_fields ro ro' -> read_cont ro ls n = read_cont ro' ls n.
Proof.
  intros Q. unfold read_cont. destruct (get_line ls n); cbn [bind]; [|reflexivity].
  pose proof Q as (_ & W & _). rewrite W, !(read_float_fields ro ro') by auto.
  rewrite (read_ctrl_fields ro ro') by auto. reflexivity.
Qed.

Lemma read_send_fields ro ro' ls n : same_fields ro ro' -> read_send ro ls n = read_send ro' ls n.
Proof. intros Q. unfold read_send. now rewrite (read_cont_fields ro ro'). Qed.

(** blank lines *)
Lemma step_ignore_blank ro st l st' : split_step ro st l = Ok st' ->
  split_step (ignore_blank ro) st l = Ok st'.
Proof.
  unfold split_step. change (r_send (ignore_blank ro)) with (r_send ro).
  change (read_ctrl (ignore_blank ro) l) with (read_ctrl ro l).
  rewrite (read_send_fields (ignore_blank ro) ro) by (unfold same_fields; cbn; auto). cbn [r_blank ignore_blank].
  destruct (is_blank l); [|auto]. destruct (sec_level st =? -1); [auto|].
  destruct (r_blank ro); [auto|discriminate].
Qed.

Lemma loop_ignore_blank ro ls ls' : blank_inserted ls ls' -> forall st st',
  split_loop ro st ls = Ok st' -> split_loop (ignore_blank ro) st ls' = Ok st'.
Proof.
  induction 1 as [|l a b _ IH|l a b B _ IH]; intros st st' H; [exact H| |].
  - cbn [split_loop] in *. destruct (split_step ro st l) as [s|] eqn:E; [|discriminate].
    rewrite (step_ignore_blank _ _ _ _ E). cbn [bind] in *. auto.
  - cbn [split_loop]. assert (split_step (ignore_blank ro) st l = Ok st) as ->.
    { unfold split_step. apply blank_iff in B. rewrite B. cbn. destruct (_ =? _); reflexivity. }
    cbn [bind]. auto.
Qed.

Lemma split_cons ro l0 rest : is_blank l0 = false ->
  split_sections ro (l0 :: rest) =
  do th <- read_ctrl ro l0;
  do st <- (if negb (MF th =? 0) || negb (MT th =? 0) then
       if negb (r_tpid ro) then Err UnexpectedControlRecordError
       else split_loop ro (mkst 0 0 0 0 []) (l0 :: rest)
     else split_loop ro (mkst 0 0 0 0 (dic_append [] (MF th) (MT th) l0)) rest);
  if negb (r_send ro) && (0 <=? sec_level st) then Err UnexpectedEndOfInputError
  else Ok (sec_dic st).
Proof. intros B. unfold split_sections. cbn [skip_leading_blank]. rewrite B. reflexivity. Qed.

Lemma split_ignore_blank ro l0 rest rest' d : split_sections ro (l0 :: rest) = Ok d ->
  ~ blank l0 -> blank_inserted rest rest' -> split_sections (ignore_blank ro) (l0 :: rest') = Ok d.
Proof.
  intros H NB BI. apply not_blank_is in NB. rewrite split_cons in * by auto.
  change (read_ctrl (ignore_blank ro) l0) with (read_ctrl ro l0).
  destruct (read_ctrl ro l0) as [th|]; [|discriminate]. cbn [bind] in *.
  change (r_tpid (ignore_blank ro)) with (r_tpid ro). change (r_send (ignore_blank ro)) with (r_send ro).
  destruct (negb (MF th =? 0) || negb (MT th =? 0)).
  - destruct (negb (r_tpid ro)); [discriminate|].
    destruct (split_loop ro _ (l0 :: rest)) as [st|] eqn:E; [|discriminate].
    rewrite (loop_ignore_blank ro (l0 :: rest) (l0 :: rest') (bi_keep _ _ _ BI) _ _ E). exact H.
  - destruct (split_loop ro _ rest) as [st|] eqn:E; [|discriminate].
    rewrite (loop_ignore_blank ro _ _ BI _ _ E). exact H.
Qed.

(** missing section-end records *)
Lemma loop_ignore_send ro ls ls' : ends_dropped ro ls ls' -> Forall (fun l => ~ blank l) ls ->
  r_send ro = false -> forall st st' s,
  split_loop ro st ls = Ok st' -> sec_dic s = sec_dic st -> 0 <= sec_level s ->
  exists s', split_loop (ignore_send ro) s ls' = Ok s' /\ sec_dic s' = sec_dic st'.
Proof.
  intros ED NB RS. induction ED as [|l a b _ IH|l a b mat mf E _ IH]; intros st st' s H Q Lv.
  - inversion H; subst. exists s. auto.
  - inversion NB as [|? ? N1 N2]; subst. cbn [split_loop] in *.
    destruct (split_step ro st l) as [st1|] eqn:ES; [|discriminate]. cbn [bind] in H.
    unfold split_step in *. rewrite (not_blank_is l N1) in *.
    change (read_ctrl (ignore_send ro) l) with (read_ctrl ro l).
    destruct (Z.eqb_spec (sec_level s) (-1)); [lia|].
    destruct (sec_level st =? -1); [discriminate|].
    destruct (read_ctrl ro l) as [c|]; [|discriminate]. cbn [bind] in *.
    cbn [r_send ignore_send negb] in *. rewrite RS in ES. cbn [negb] in ES.
    rewrite !andb_true_r, !andb_false_r in *. cbn [andb].
    destruct (negb (MAT c =? 0) && negb (MF c =? 0) && negb (MT c =? 0)).
    + destruct (_ || _); cbn [andb] in ES; [discriminate|]. inversion ES; subst. cbn [bind].
      apply (IH N2 _ st' _ H); [cbn; now rewrite Q|cbn; lia].
    + cbn [andb] in ES. cbn [bind]. apply (IH N2 st1 st' s H); auto.
      repeat match type of ES with (if ?x then _ else _) = _ => destruct x; try discriminate end.
      destruct (read_send ro [l] 0); [|discriminate]. inversion ES; subst. exact Q.
  - inversion NB as [|? ? N1 N2]; subst. cbn [split_loop] in H.
    destruct (split_step ro st l) as [st1|] eqn:ES; [|discriminate]. cbn [bind] in H.
    apply (IH N2 st1 st' s H); auto.
    destruct E as (_ & C & _). apply carries_iff in C.
    unfold split_step in ES. rewrite (not_blank_is l N1), C, RS in ES.
    destruct (sec_level st =? -1); [discriminate|]. cbn [bind mkctrl MAT MF MT] in ES.
    rewrite Z.eqb_refl in ES. cbn [negb] in ES. rewrite !andb_false_r in ES. cbn [andb] in ES.
    repeat match type of ES with (if ?x then _ else _) = _ => destruct x; try discriminate end.
    destruct (read_send ro [l] 0); [|discriminate]. inversion ES; subst. exact Q.
Qed.

Lemma split_ignore_send ro l0 rest rest' d : strict ro -> split_sections ro (l0 :: rest) = Ok d ->
  Forall (fun l => ~ blank l) (l0 :: rest) -> ends_dropped ro rest rest' ->
  split_sections (ignore_send ro) (l0 :: rest') = Ok d.
Proof.
  intros (RB & RS & RT) H NB ED. inversion NB as [|? ? N1 N2]; subst.
  rewrite split_cons in * by now apply not_blank_is.
  change (read_ctrl (ignore_send ro) l0) with (read_ctrl ro l0).
  destruct (read_ctrl ro l0) as [th|]; [|discriminate]. cbn [bind] in *.
  change (r_tpid (ignore_send ro)) with (r_tpid ro). rewrite RT in *. rewrite RS in H.
  destruct (negb (MF th =? 0) || negb (MT th =? 0)); [discriminate|].
  destruct (split_loop ro _ rest) as [st|] eqn:E; [|discriminate]. cbn [bind] in H.
  destruct (loop_ignore_send ro _ _ ED N2 RS _ _ (mkst 0 0 0 0 (dic_append [] (MF th) (MT th) l0)) E) as (s' & -> & Q); auto; [cbn; lia|].
  cbn [bind r_send ignore_send negb andb]. rewrite Q.
  destruct (_ && _); [discriminate|exact H].
Qed.

(** missing tape head *)
Lemma split_ignore_tpid ro l0 rest d : strict ro -> split_sections ro (l0 :: rest) = Ok d ->
  (exists l r mat mf mt, rest = l :: r /\ carries (r_width ro) l mat mf mt /\ mf <> 0) ->
  exists d', split_sections (ignore_tpid ro) rest = Ok d' /\ is_dict2 d' /\
    forall mf mt ls, holds d' mf mt ls <-> holds d mf mt ls /\ mf <> 0.
Proof.
  intros S H (l & r & mat & mf & mt & -> & C & Nf).
  destruct (split_sound ro _ d S H) as (t & T & EQ). pose proof S as (RB & RS & RT).
  rewrite EQ, split_tape in H by auto. inversion H; subst d. clear H.
  destruct (tape_dict_spec ro t T) as [[G1 G2] L]. pose proof T as (NB & _ & F & E & B).
  unfold tape_lines in EQ. inversion EQ as [[E1 E2]].
  assert (NBl : is_blank l = false).
  { apply not_blank_is. intros X. destruct (carries_blank _ _ _ _ _ C X) as (_ & -> & _). lia. }
  rewrite E2. set (ro' := ignore_tpid ro).
  assert (split_sections ro' (l :: r) = Ok (fold_left mat_dict (t_mats t) [])) as SE.
  { rewrite split_cons by auto. change (read_ctrl ro' l) with (read_ctrl ro l).
    pose proof (proj2 (carries_iff ro l mat mf mt) C) as RC. rewrite RC. cbn [bind mkctrl MF MT].
    destruct (Z.eqb_spec mf 0); [contradiction|]. cbn [negb orb r_tpid ignore_tpid].
    change (r_tpid ro') with true. cbn [negb].
    change (r_send ro') with (r_send ro). rewrite RS.
    rewrite E2. rewrite split_loop_app.
    assert (Fm : Forall (material_ok ro') (t_mats t)) by exact F.
    destruct (loop_materials ro' RS (t_mats t) (mkst 0 0 0 0 []) Fm eq_refl) as (a & b & c & ->).
    cbn [bind split_loop]. rewrite (step_end_ok ro' _ (t_tend t) (-1) 0) by (auto; cbn; lia). cbn [bind].
    rewrite loop_blank by auto. reflexivity. }
  rewrite <- E2, SE. eexists. split; [reflexivity|].
  assert (G0' : good_dict (@nil (Z * mtdic (list str)))).
  { split; [split; [constructor|intros ? ? []]|]. intros a b x X. discriminate X. }
  destruct (mats_dict_spec (t_mats t) [] G0') as [[G3' G4] L2]. split; auto.
  intros mf' mt' ls. rewrite !holds_lookup by auto.
  assert (LL : lines_of (fold_left mat_dict (t_mats t) []) mf' mt' = concat (map (pick_mat mf' mt') (t_mats t))) by apply L2.
  assert (LL2 : mf' <> 0 -> lines_of (tape_dict t) mf' mt' = concat (map (pick_mat mf' mt') (t_mats t))).
  { intros N. rewrite L. unfold tape_section. destruct (Z.eqb_spec mf' 0); [contradiction|]. reflexivity. }
  unfold lines_of in LL, LL2. split.
  - intros X. rewrite X in LL. pose proof (G4 _ _ _ X) as Nl.
    destruct (Z.eq_dec mf' 0) as [->|N0].
    + rewrite (pick_zero ro) in LL by auto. congruence.
    + split; auto. specialize (LL2 N0). rewrite <- LL in LL2.
      destruct (lookup2 (tape_dict t) mf' mt'); congruence.
  - intros [X N0]. specialize (LL2 N0). rewrite X in LL2. pose proof (G2 _ _ _ X) as Nl.
    rewrite <- LL2 in LL. destruct (lookup2 (fold_left mat_dict (t_mats t) []) mf' mt'); congruence.
Qed.
