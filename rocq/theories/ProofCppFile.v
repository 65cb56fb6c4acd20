(** Whole files: if both parsers accept a file, their dictionaries are related as those of the
    sections are. *)
From Coq Require Import Ascii String ZArith Bool Lia List.
From Verif Require Import PyBase ProofPyBase PyFloat ModelFortran ModelRecords ModelTape SpecFields SpecFloat SpecLibm ProofFields SpecTape ProofTape ProofTapeWrite ProofTapeParse.
From Verif Require Import ModelCpp ModelCppTab ModelCppRead SpecCpp SpecCppTab SpecCppRead ProofCpp ProofCppRead.
Import ListNotations.
Open Scope Z_scope.


Lemma section_plain : forall t m mf s, t_mats t = [m] -> In (mf, s) (sections m) -> Forall plain_line (tape_lines t) -> Forall plain_line (s_body s).
Proof.
  intros t m mf s Em I PL. unfold sections in I. apply in_concat in I as (l & I & J). apply in_map_iff in I as (f & <- & I). apply in_map_iff in J as (s' & Es & J). inversion Es; subst.
  apply Forall_forall. intros l Il. rewrite Forall_forall in PL. apply PL. unfold tape_lines. rewrite Em. right. apply in_app_iff. left. cbn [map concat]. rewrite app_nil_r.
  unfold material_lines. apply in_app_iff. left. apply in_concat. exists (file_lines f). split; [now apply in_map|]. unfold file_lines. apply in_app_iff. left.
  apply in_concat. exists (section_lines s). split; [now apply in_map|]. unfold section_lines. apply in_app_iff. now left.
Qed.

Section Loop.
  Context {D : Type}.
  Variable run_cpp : Z -> Z -> list str -> cpp (D * list str).
  Variable has : Z -> Z -> bool.
  Variable o : croopts.
  Variables exc inc : selection.
  Variable ro : ropts.
  Hypothesis W : r_width ro = 11%nat.
  Hypothesis Acc : cr_accept o = r_spaces ro.

  Notation step := (read_turn run_cpp has o exc inc).
  Notation loop := (read_loop run_cpp has o exc inc).

  (** C++ stops behind the section *)
  Definition stops (mf mt : Z) (body ends : list str) : Prop :=
    should_parse_section mf mt exc inc = true -> forall rest d left, run_cpp mf mt (body ++ ends ++ rest) = Val (d, left) -> left = rest.
  Definition copies (mf mt : Z) : Prop := should_parse_section mf mt exc inc = false -> cr_validate o = false.
  Definition has_read (mf mt : Z) (body ends : list str) (x : section D) : Prop :=
    (should_parse_section mf mt exc inc = true /\ exists d rest, x = Parsed d /\ run_cpp mf mt (body ++ ends ++ rest) = Val (d, rest)) \/
    (should_parse_section mf mt exc inc = false /\ x = Raw (map with_break body)).

  Lemma turn_section st mat mf s rest l r y : inv st -> mf <> 0 -> section_ok ro mat mf s -> has mf (s_mt s) = true ->
    Forall plain_line (section_lines s) -> stops mf (s_mt s) (s_body s) [s_send s] -> copies mf (s_mt s) ->
    section_lines s ++ rest = l :: r -> step st l r = Val y ->
    exists x, has_read mf (s_mt s) (s_body s) [s_send s] x /\
      y = (rest, turn mf true true false false false (dic_set (rs_dict st) mf (s_mt s) x)).
  Proof.
    intros I Nf (Nt & NE & C & E) H P ST CP El Y. unfold section_lines in *. destruct (s_body s) as [|l0 b] eqn:Eb; [contradiction|].
    cbn [app] in El. injection El as -> Er. rewrite <- app_assoc in Er. cbn [app] in Er. subst r.
    apply Forall_app in P as [Pb Ps]. apply Forall_cons_iff in Ps as [Ps _].
    pose proof C as C'. apply Forall_cons_iff in C as [Cl C]. pose proof Pb as Pb'. apply Forall_cons_iff in Pb as [Pl Pb].
    destruct (plain_control ro l _ _ _ W Pl Cl) as ((A1 & A2 & A3) & _). cbn [mkctrl MAT MF MT] in A1, A2, A3.
    pose proof (check_ok o st mf I Nf) as CK. destruct I as (I1 & I2 & I3 & I4 & I5).
    unfold read_turn in Y. rewrite A1, A2, A3 in Y. cbn [cbind] in Y.
    rewrite H in Y. destruct (Z.eqb_spec mf 0); [contradiction|]. cbn [andb negb orb] in Y. rewrite I2, CK in Y. cbn [cbind] in Y.
    rewrite I1, I3, I4 in Y. cbn [andb] in Y.
    destruct (should_parse_section mf (s_mt s) exc inc) eqn:S.
    - destruct (run_cpp mf (s_mt s) (l :: b ++ s_send s :: rest)) as [[d left]| |] eqn:R; cbn [cbind] in Y; try discriminate Y.
      assert (left = rest) as -> by exact (ST S rest d left R). injection Y as <-. exists (Parsed d). split; [|reflexivity].
      left. split; [exact S|]. exists d, rest. split; [reflexivity|exact R].
    - rewrite (CP S) in Y. unfold read_section_verbatim in Y.
      change (l :: b ++ s_send s :: rest) with ((l :: b) ++ s_send s :: rest) in Y.
      destruct E as (_ & Ce & _).
      pose proof (scan_section ro mat mf (s_mt s) (l :: b) (s_send s) mat mf 0 rest W Pb' C' Ps Ce (or_intror (not_eq_sym Nt))) as SC.
      unfold mkctrl in SC. rewrite SC in Y. cbn [cbind MF] in Y. rewrite !Z.eqb_refl in Y. injection Y as <-.
      exists (Raw (map with_break (l :: b))). split; [|reflexivity]. right. split; [exact S|reflexivity].
  Qed.

  Definition had (ms : Z * tsection) (e : Z * Z * section D) : Prop :=
    fst e = (fst ms, s_mt (snd ms)) /\ has_read (fst ms) (s_mt (snd ms)) (s_body (snd ms)) [s_send (snd ms)] (snd e).
  Definition sound (ms : Z * tsection) : Prop :=
    has (fst ms) (s_mt (snd ms)) = true /\ Forall plain_line (section_lines (snd ms)) /\
    stops (fst ms) (s_mt (snd ms)) (s_body (snd ms)) [s_send (snd ms)] /\ copies (fst ms) (s_mt (snd ms)).

  Lemma inv_secs mat mf : mf <> 0 -> forall secs rest st n d, inv st -> (secs <> [] \/ ready st) ->
    Forall (section_ok ro mat mf) secs -> Forall sound (map (fun s => (mf, s)) secs) ->
    loop n st (concat (map section_lines secs) ++ rest) = Val d ->
    exists es n' st', Forall2 had (map (fun s => (mf, s)) secs) es /\ inv st' /\ ready st' /\ rs_dict st' = fold_left put es (rs_dict st) /\
      loop n' st' rest = Val d.
  Proof.
    intros Nf. induction secs as [|s secs IH]; intros rest st n d I Rd S H L.
    - destruct Rd as [X|Rd]; [contradiction|]. exists [], n, st. cbn [map concat app fold_left] in *. split; [constructor|auto].
    - apply Forall_cons_iff in S as [S1 S]. cbn [map] in H. apply Forall_cons_iff in H as [(H1 & H2 & H3 & H4) H]. cbn [fst snd] in H1, H2, H3, H4.
      cbn [map concat] in L. rewrite <- app_assoc in L.
      destruct (section_lines s ++ concat (map section_lines secs) ++ rest) as [|l r] eqn:El.
      { exfalso. unfold section_lines in El. destruct (s_body s); discriminate El. }
      destruct n as [|n]; [discriminate|]. cbn [read_loop] in L. destruct (step st l r) as [y| |] eqn:Y; cbn [cbind] in L; try discriminate L.
      destruct (turn_section st mat mf s _ l r y I Nf S1 H1 H2 H3 H4 El Y) as (x & R & ->). cbn iota in L.
      destruct (IH rest (turn mf true true false false false (dic_set (rs_dict st) mf (s_mt s) x)) n d (inv_turn _ _) (or_intror (conj eq_refl eq_refl)) S H L) as (es & n' & st' & F & I' & R' & Dd & Lp).
      exists ((mf, s_mt s, x) :: es), n', st'. split; [cbn [map]; constructor; [split; [reflexivity|exact R]|exact F]|].
      split; [exact I'|]. split; [exact R'|]. split; [|exact Lp]. rewrite Dd. reflexivity.
  Qed.

  Lemma inv_files mat : forall fs rest st n d, inv st -> (fs <> [] \/ behind st) -> Forall (file_ok ro mat) fs ->
    Forall (fun f => plain_line (f_fend f) /\ plain_end (r_spaces ro) (f_fend f)) fs ->
    Forall sound (concat (map file_sections fs)) -> loop n st (concat (map file_lines fs) ++ rest) = Val d ->
    exists es n' st', Forall2 had (concat (map file_sections fs)) es /\ behind st' /\ rs_dict st' = fold_left put es (rs_dict st) /\
      loop n' st' rest = Val d.
  Proof.
    induction fs as [|f fs IH]; intros rest st n d I B S F H L; cbn [map concat] in *.
    - destruct B as [B|B]; [contradiction|]. exists [], n, st. cbn [app fold_left] in *. split; [constructor|auto].
    - apply Forall_cons_iff in S as [(Nf & NE & S1 & Ef) S]. apply Forall_cons_iff in F as [[F1 F2] F]. apply Forall_app in H as [H1 H].
      unfold file_lines at 1 in L. rewrite <- !app_assoc in L. cbn [app] in L.
      destruct (inv_secs mat (f_mf f) Nf (f_secs f) _ st n d I (or_introl NE) S1 H1 L) as (e1 & n1 & st1 & G1 & I1 & R1 & D1 & L1).
      destruct n1 as [|n1]; [discriminate|]. cbn [read_loop] in L1. rewrite (fend_turn run_cpp has o exc inc ro W Acc st1 (f_fend f) mat _ I1 R1 F1 F2 Ef) in L1. cbn [cbind] in L1.
      destruct (IH rest (turn 0 true true true false false (rs_dict st1)) n1 d) as (e2 & n2 & st2 & G2 & B2 & D2 & L2); auto.
      { apply behind_inv. repeat split. } { right. repeat split. }
      exists (e1 ++ e2), n2, st2. split; [apply Forall2_app; assumption|]. split; [exact B2|]. split; [|exact L2].
      rewrite D2, fold_left_app, <- D1. reflexivity.
  Qed.

  Lemma turn_head head l r mat mf mt mat' y : plain_line head -> carries (r_width ro) head mat 0 0 -> has 0 0 = true ->
    plain_line l -> carries (r_width ro) l mat' mf mt -> mf <> 0 -> stops 0 0 [head] [] -> copies 0 0 ->
    step read_start head (l :: r) = Val y ->
    exists x, has_read 0 0 [head] [] x /\ y = (l :: r, turn 0 true true false false false (dic_set [] 0 0 x)).
  Proof.
    intros P C H Pl Cl Nf ST CP Y. destruct (plain_control ro head _ _ _ W P C) as ((A1 & A2 & A3) & _). cbn [mkctrl MAT MF MT] in A1, A2, A3.
    unfold read_turn in Y. rewrite A1, A2, A3 in Y. cbn [cbind] in Y. rewrite H in Y. cbn [Z.eqb andb negb orb read_start rs_first rs_fend rs_mend rs_tend rs_last rs_seen rs_dict rs_tpid] in Y.
    unfold check_end_records in Y. cbn [andb orb negb] in Y. rewrite !andb_false_r in Y. cbn [cbind] in Y.
    destruct (should_parse_section 0 0 exc inc) eqn:S.
    - destruct (run_cpp 0 0 (head :: l :: r)) as [[d left]| |] eqn:R; cbn [cbind] in Y; try discriminate Y.
      assert (left = l :: r) as -> by exact (ST S (l :: r) d left R). injection Y as <-. exists (Parsed d). split; [|reflexivity].
      left. split; [exact S|]. exists d, (l :: r). split; [reflexivity|exact R].
    - rewrite (CP S) in Y. unfold read_section_verbatim in Y.
      pose proof (scan_section ro mat 0 0 [head] l mat' mf mt r W) as SC. cbn [app] in SC.
      unfold mkctrl in SC. rewrite SC in Y; auto. cbn [cbind] in Y. injection Y as <-. exists (Raw (map with_break [head])). split; [|reflexivity].
      right. split; [exact S|reflexivity].
  Qed.

  Lemma inv_tape t m d : tape_ok ro t -> t_mats t = [m] -> t_rest t = [] -> Forall plain_line (tape_lines t) ->
    Forall (fun f => plain_end (r_spaces ro) (f_fend f)) (m_files m) -> plain_end (r_spaces ro) (m_mend m) -> plain_end (r_spaces ro) (t_tend t) ->
    has 0 0 = true -> stops 0 0 [t_head t] [] -> copies 0 0 -> Forall sound (sections m) ->
    master_read run_cpp has o exc inc (tape_lines t) = Val d ->
    exists hx es, has_read 0 0 [t_head t] [] hx /\ Forall2 had (sections m) es /\ d = dict_of ((0, 0, hx) :: es).
  Proof.
    intros (NB & (hm & Ch) & M & E & B) Em Er P PF PM PT H0 ST CP SD L. rewrite Em in M. apply Forall_cons_iff in M as [(Nm & NE & F & Ee) _].
    unfold master_read in L. unfold tape_lines in *. rewrite Em, Er in P, L. cbn [map concat] in P, L. rewrite app_nil_r in P, L.
    unfold material_lines in *. rewrite <- app_assoc in P, L. cbn [app] in P, L.
    apply Forall_cons_iff in P as [Ph P]. apply Forall_app in P as [P P']. apply Forall_cons_iff in P' as [Pm P']. apply Forall_cons_iff in P' as [Pt _].
    cbn [length] in L. cbn [read_loop] in L.
    assert (HD : exists l r mf mt, concat (map file_lines (m_files m)) = l :: r /\ carries (r_width ro) l (m_mat m) mf mt /\ mf <> 0 /\ plain_line l).
    { destruct (m_files m) as [|f fs]; [contradiction|]. apply Forall_cons_iff in F as [(Nf & NEs & Fs & _) _].
      cbn [map concat] in P |- *. unfold file_lines in P |- *. destruct (f_secs f) as [|s ss]; [contradiction|]. apply Forall_cons_iff in Fs as [(_ & NEb & Cb & _) _].
      cbn [map concat] in P |- *. unfold section_lines in P |- *. destruct (s_body s) as [|l b]; [contradiction|]. apply Forall_cons_iff in Cb as [Cb _].
      cbn [app] in P |- *. apply Forall_cons_iff in P as [P _]. eexists _, _, (f_mf f), (s_mt s). split; [reflexivity|]. auto. }
    destruct HD as (l & r & mf & mt & El & Cl & Nf & Pl).
    assert (FF : Forall (fun f => plain_line (f_fend f) /\ plain_end (r_spaces ro) (f_fend f)) (m_files m)).
    { apply Forall_forall. intros f I. rewrite Forall_forall in PF. split; [|auto].
      apply Forall_concat in P. rewrite Forall_map in P. rewrite Forall_forall in P. specialize (P f I). unfold file_lines in P. apply Forall_app in P as [_ P].
      now apply Forall_cons_iff in P as [P _]. }
    rewrite El in L. cbn [app] in L.
    destruct (step read_start (t_head t) (l :: r ++ [m_mend m; t_tend t])) as [y| |] eqn:Y; cbn [cbind] in L; try discriminate L.
    destruct (turn_head (t_head t) l _ hm mf mt (m_mat m) y Ph Ch H0 Pl Cl Nf ST CP Y) as (hx & Rh & ->). cbn iota in L.
    change (l :: r ++ [m_mend m; t_tend t]) with ((l :: r) ++ [m_mend m; t_tend t]) in L. rewrite <- El in L.
    destruct (inv_files (m_mat m) (m_files m) [m_mend m; t_tend t] (turn 0 true true false false false (dic_set [] 0 0 hx)) _ d (inv_turn _ _) (or_introl NE) F FF SD L)
      as (es & n' & st' & G & Bh & Dd & Lp).
    exists hx, es. split; [exact Rh|]. split; [exact G|].
    assert (N2 : (2 <= n')%nat).
    { destruct n' as [|[|n']]; [discriminate| |lia]. exfalso. cbn [read_loop] in Lp. revert Lp.
      destruct Bh as (a & b & c & d1 & e & f & g).
      pose proof Ee as (NBm & Cm & _). destruct (plain_control ro (m_mend m) _ _ _ W Pm Cm) as ((A1 & A2 & A3) & _). cbn [mkctrl MAT MF MT] in A1, A2, A3.
      unfold read_turn. rewrite A1, A2, A3. cbn [cbind Z.eqb andb negb orb]. rewrite a, andb_false_r.
      rewrite (not_spaces _ NBm), c, e. cbn [cbind]. rewrite Acc, (end_is_mend ro _ (m_mend m)) by auto. cbn [cbind]. discriminate. }
    rewrite (loop_end run_cpp has o exc inc ro W Acc st' _ _ n' Bh Pm PM Ee Pt PT E N2) in Lp. injection Lp as <-. rewrite Dd. reflexivity.
  Qed.
End Loop.

Section Python.
  Context {P D : Type}.
  Variable pr : P -> Z -> Z -> list str -> result D * P.
  Variable has : Z -> Z -> bool.
  Variables (ro : ropts) (wo : wopts) (nofail : bool) (exc inc : selection).

  Definition py_had (mf mt : Z) (ls : list str) (x : section D) : Prop :=
    exists p p', parse_section pr has ro wo nofail exc inc p mf mt ls = (Ok x, p').
  Lemma inv_mts mf : forall mts p sub p', parse_mts pr has ro wo nofail exc inc p mf mts = (Ok sub, p') ->
    Forall2 (fun a b => fst a = fst b /\ py_had mf (fst a) (snd a) (snd b)) mts sub.
  Proof.
    induction mts as [|[mt ls] mts IH]; intros p sub p' H; cbn [parse_mts] in H; [injection H as <- _; constructor|].
    destruct (parse_section pr has ro wo nofail exc inc p mf mt ls) as [[x|] p1] eqn:E; [|discriminate].
    destruct (parse_mts pr has ro wo nofail exc inc p1 mf mts) as [[r|] p2] eqn:E2; [|discriminate]. injection H as <- _.
    constructor; [|eapply IH; exact E2]. split; [reflexivity|]. exists p, p1. exact E.
  Qed.
  Lemma inv_mfs : forall d p d' p', parse_mfs pr has ro wo nofail exc inc p d = (Ok d', p') ->
    Forall2 (fun a b => fst a = fst b /\ Forall2 (fun a' b' => fst a' = fst b' /\ py_had (fst a) (fst a') (snd a') (snd b')) (snd a) (snd b)) d d'.
  Proof.
    induction d as [|[mf mts] d IH]; intros p d' p' H; cbn [parse_mfs] in H; [injection H as <- _; constructor|].
    destruct (parse_mts pr has ro wo nofail exc inc p mf mts) as [[sub|] p1] eqn:E; [|discriminate].
    destruct (parse_mfs pr has ro wo nofail exc inc p1 d) as [[r|] p2] eqn:E2; [|discriminate]. injection H as <- _.
    constructor; [|eapply IH; exact E2]. split; [reflexivity|]. exact (inv_mts _ _ _ _ _ E).
  Qed.
  Lemma keys_same {A B} (Q : Z * A -> Z * B -> Prop) l m : (forall a b, Q a b -> fst a = fst b) -> Forall2 Q l m -> map fst l = map fst m.
  Proof. intros H F. induction F as [|a b l m X _ IH]; [reflexivity|]. cbn [map]. now rewrite (H _ _ X), IH. Qed.
  Lemma dict_parsed d p d' p' : parse_mfs pr has ro wo nofail exc inc p d = (Ok d', p') -> is_dict2 d -> is_dict2 d'.
  Proof.
    intros H [A B]. apply inv_mfs in H. split.
    - unfold is_dict in *. erewrite <- keys_same; [exact A| |exact H]. now intros ? ? [].
    - intros mf sub I. destruct (Forall2_in_r _ _ _ _ H I) as ([mf' s'] & I' & X & F). cbn [fst snd] in *. subst mf'. specialize (B _ _ I').
      unfold is_dict in *. erewrite <- keys_same; [exact B| |exact F]. now intros ? ? [].
  Qed.
  Lemma had_holds d p d' p' : parse_mfs pr has ro wo nofail exc inc p d = (Ok d', p') ->
    (forall mf mt ls, holds d mf mt ls -> exists x, holds d' mf mt x /\ py_had mf mt ls x) /\
    (forall mf mt x, holds d' mf mt x -> exists ls, holds d mf mt ls /\ py_had mf mt ls x).
  Proof.
    intros H. apply inv_mfs in H. split.
    - intros mf mt ls (sub & I & J). destruct (Forall2_in_l _ _ _ _ H I) as ([mf' s'] & I' & X & F'). cbn [fst snd] in *. subst mf'.
      destruct (Forall2_in_l _ _ _ _ F' J) as ([mt' y] & J' & Y & R). cbn [fst snd] in *. subst mt'. exists y. split; [exists s'; auto|exact R].
    - intros mf mt x (sub & I & J). destruct (Forall2_in_r _ _ _ _ H I) as ([mf' s'] & I' & X & F'). cbn [fst snd] in *. subst mf'.
      destruct (Forall2_in_r _ _ _ _ F' J) as ([mt' ls] & J' & Y & R). cbn [fst snd] in *. subst mt'. exists ls. split; [exists s'; auto|exact R].
  Qed.
End Python.

Section Both.
  Context {P D E : Type}.
  Variable R : D -> E -> Prop.
  Variable pr : P -> Z -> Z -> list str -> result D * P.
  Variable run_cpp : Z -> Z -> list str -> cpp (E * list str).
  Variable has : Z -> Z -> bool.
  Variables (ro : ropts) (wo : wopts) (o : croopts) (exc inc : selection).
  Hypothesis W : r_width ro = 11%nat.
  Hypothesis Ww : w_width wo = 11%nat.

  (** what Python's acceptance of a section says *)
  Lemma py_section mf mt mat body x : body <> [] -> has mf mt = true ->
    Forall (fun l => carries (r_width ro) l mat mf mt) body -> Forall (fun l => (75 <= length l)%nat) body ->
    py_had pr has ro wo false exc inc mf mt (map with_break body) x ->
    (should_parse_section mf mt exc inc = false /\ x = Raw (map with_break body)) \/
    (should_parse_section mf mt exc inc = true /\ exists p p' d send, x = Parsed d /\ end_line ro wo $"99999" send mat mf /\
       pr p mf mt (map with_break body ++ [send]) = (Ok d, p')).
  Proof.
    intros NE H C L (p & p' & PS). destruct body as [|l b]; [contradiction|]. apply Forall_cons_iff in C as [C _]. apply Forall_cons_iff in L as [L _].
    apply (break_carries ro l) in C; [|exact W|exact L]. apply carries_iff in C.
    unfold parse_section, get_line in PS. cbn [map nth_error bind] in PS. rewrite C, H in PS. cbn [andb] in PS.
    destruct (should_skip_section mf mt exc inc) eqn:Sk; cbn [negb] in PS.
    - left. rewrite selection_same, Sk. split; [reflexivity|]. injection PS as <- _. reflexivity.
    - right. rewrite selection_same, Sk. split; [reflexivity|]. pose proof (read_ctrl_fits _ _ _ C) as Fc.
      destruct (write_end_line ro wo false {| MAT := mat; MF := mf; MT := 0 |} $"99999") as (sl & Es & Er).
      { unfold field_width. rewrite Ww. lia. } { now rewrite W, Ww. } { destruct Fc as (F1 & F2 & F3). repeat split; cbn in *; lia. } { reflexivity. } { reflexivity. }
      unfold write_send, mkctrl in PS. cbn [MAT MF] in PS. rewrite Es in PS.
      destruct (pr p mf mt (with_break l :: map with_break b ++ [sl])) as [[d|e] p1] eqn:PR.
      + cbn [app] in PS. rewrite PR in PS. injection PS as <- _. exists p, p1, d, sl. auto.
      + cbn [app] in PS. rewrite PR, andb_false_r in PS. discriminate.
  Qed.

  Lemma tape_relation p t m d p' d' : strict ro -> cr_accept o = r_spaces ro ->
    tape_ok ro t -> t_mats t = [m] -> t_rest t = [] -> Forall plain_line (tape_lines t) ->
    Forall (fun f => plain_end (r_spaces ro) (f_fend f)) (m_files m) -> plain_end (r_spaces ro) (m_mend m) -> plain_end (r_spaces ro) (t_tend t) ->
    NoDup (map (fun ms => (fst ms, s_mt (snd ms))) (sections m)) ->
    has 0 0 = true -> (forall mf s, In (mf, s) (sections m) -> has mf (s_mt s) = true) ->
    (cr_validate o = true -> selected exc inc 0 0 /\ forall mf s, In (mf, s) (sections m) -> selected exc inc mf (s_mt s)) ->
    (selected exc inc 0 0 -> recipes_related R pr run_cpp ro wo 0 0 [t_head t] []) ->
    (forall mf s, In (mf, s) (sections m) -> selected exc inc mf (s_mt s) ->
       recipes_related R pr run_cpp ro wo mf (s_mt s) (s_body s) [s_send s]) ->
    parse_tape pr has ro wo false exc inc p (map with_break (tape_lines t)) = (Ok d, p') ->
    master_read run_cpp has o exc inc (tape_lines t) = Val d' ->
    same_dictionary R d d'.
  Proof.
    intros St Acc T Em Er PL PF PM PT ND H0 H V A0 A PY CPP.
    assert (L75 : Forall (fun l => (75 <= length l)%nat) (tape_lines t)) by (eapply Forall_impl; [|exact PL]; intros l X; apply X).
    pose proof T as (NBh & (hm & Ch) & M & _).
    assert (SO : forall mf s, In (mf, s) (sections m) -> mf <> 0 /\ section_ok ro (m_mat m) mf s /\ Forall (fun l => (75 <= length l)%nat) (s_body s)) by (intros mf s I; now apply (sections_fine ro t)).
    assert (PLs : forall mf s, In (mf, s) (sections m) -> Forall plain_line (section_lines s)).
    { intros mf s I. unfold sections in I. apply in_concat in I as (l & I & J). apply in_map_iff in I as (f & <- & I). apply in_map_iff in J as (s' & Es & J). inversion Es; subst.
      apply Forall_forall. intros l Il. rewrite Forall_forall in PL. apply PL. unfold tape_lines. rewrite Em. right. apply in_app_iff. left. cbn [map concat]. rewrite app_nil_r.
      unfold material_lines. apply in_app_iff. left. apply in_concat. exists (file_lines f). split; [now apply in_map|]. unfold file_lines. apply in_app_iff. left.
      apply in_concat. exists (section_lines s). split; [now apply in_map|]. exact Il. }
    assert (PLh : (75 <= length (t_head t))%nat) by (unfold tape_lines in L75; now inversion L75).
    assert (Fh1 : Forall (fun l => carries (r_width ro) l hm 0 0) [t_head t]) by (apply Forall_cons; [exact Ch|apply Forall_nil]).
    assert (Fh2 : Forall (fun l : str => (75 <= length l)%nat) [t_head t]) by (apply Forall_cons; [exact PLh|apply Forall_nil]).
    destruct (tape_dict_holds ro t m W St T Em Er L75 ND) as (SP & G1 & HD).
    unfold parse_tape in PY. rewrite SP in PY. destruct (had_holds _ _ _ _ _ _ _ _ _ _ _ PY) as [P1 P2].
    assert (SEL : forall mf mt, should_parse_section mf mt exc inc = true -> selected exc inc mf mt).
    { intros mf mt S. apply selected_iff. rewrite selection_same in S. now apply negb_true_iff. }
    assert (CPY : forall mf mt, (cr_validate o = true -> selected exc inc mf mt) -> copies o exc inc mf mt).
    { intros mf mt X S. destruct (cr_validate o); [|reflexivity]. specialize (X eq_refl). apply selected_iff in X. rewrite selection_same, X in S. discriminate. }
    (* the head *)
    destruct (P1 0 0 (map with_break [t_head t])) as (hx & Hh & Ph); [apply HD; left; auto|].
    apply (py_section 0 0 hm) in Ph; [|discriminate|exact H0|exact Fh1|exact Fh2].
    assert (STh : stops run_cpp exc inc 0 0 [t_head t] []).
    { intros S rest e left Rn. destruct Ph as [[S' _]|(_ & q & q' & dd & sd & _ & El & Pq)]; [congruence|].
      exact (proj2 (A0 (SEL _ _ S) _ _ _ _ _ _ _ _ El Pq Rn)). }
    assert (PS : forall mf s, In (mf, s) (sections m) -> exists x, holds d mf (s_mt s) x /\
      ((should_parse_section mf (s_mt s) exc inc = false /\ x = Raw (map with_break (s_body s))) \/
       (should_parse_section mf (s_mt s) exc inc = true /\ exists q q' dd send, x = Parsed dd /\ end_line ro wo $"99999" send (m_mat m) mf /\
       pr q mf (s_mt s) (map with_break (s_body s) ++ [send]) = (Ok dd, q')))).
    { intros mf s I. destruct (P1 mf (s_mt s) (map with_break (s_body s))) as (x & Hx & Px); [apply HD; right; exists s; auto|].
      exists x. split; [exact Hx|]. destruct (SO mf s I) as (_ & (_ & NEb & Cb & _) & Lb). apply (py_section mf (s_mt s) (m_mat m)) in Px; auto. }
    assert (SD : Forall (sound run_cpp has o exc inc) (sections m)).
    { apply Forall_forall. intros [mf s] I. split; [exact (H mf s I)|]. split; [exact (PLs mf s I)|]. cbn [fst snd]. split.
      - intros S rest e left Rn. destruct (PS mf s I) as (x & _ & [[S' _]|(_ & q & q' & dd & sd & _ & El & Pq)]); [congruence|].
        exact (proj2 (A mf s I (SEL _ _ S) _ _ _ _ _ _ _ _ El Pq Rn)).
      - apply CPY. intros v. exact (proj2 (V v) mf s I). }
    destruct (inv_tape run_cpp has o exc inc ro W Acc t m d' T Em Er PL PF PM PT H0 STh (CPY 0 0 (fun v => proj1 (V v))) SD CPP) as (cx & es & Rh & Es & ->).
    assert (KE : map fst es = map (fun ms => (fst ms, s_mt (snd ms))) (sections m)).
    { clear -Es. induction Es as [|ms e l es [X _] _ IH]; [reflexivity|]. cbn [map]. now rewrite X, IH. }
    assert (N0 : NoDup (map fst ((0, 0, cx) :: es))).
    { cbn [map fst]. constructor; [|now rewrite KE]. rewrite KE. intros I. apply in_map_iff in I as ([mf s] & Ek & I). cbn [fst snd] in Ek. inversion Ek. destruct (SO mf s I) as (N & _). contradiction. }
    assert (EN : forall mf mt mat body ends x y,
      (should_parse_section mf mt exc inc = false /\ x = Raw (map with_break body)) \/
      (should_parse_section mf mt exc inc = true /\ exists p p' d send, x = Parsed d /\ end_line ro wo $"99999" send mat mf /\
       pr p mf mt (map with_break body ++ [send]) = (Ok d, p')) ->
      (selected exc inc mf mt -> recipes_related R pr run_cpp ro wo mf mt body ends) ->
      has_read run_cpp exc inc mf mt body ends y -> same_entry R x y).
    { intros mf mt mat body ends x y X RR [(S & e & rest & -> & Rn)|(S & ->)].
      - destruct X as [[S' _]|(_ & q & q' & dd & sd & -> & El & Pq)]; [congruence|]. constructor. exact (proj1 (RR (SEL _ _ S) _ _ _ _ _ _ _ _ El Pq Rn)).
      - destruct X as [[_ ->]|(S' & _)]; [constructor|congruence]. }
    assert (DD : is_dict2 d) by exact (dict_parsed _ _ _ _ _ _ _ _ _ _ _ PY G1).
    assert (ISD : forall mf mt x y, holds d mf mt x -> holds d mf mt y -> x = y).
    { intros mf mt x y X Y. apply (holds_lookup _ _ _ _ DD) in X, Y. congruence. }
    split.
    - intros mf mt x Hx. destruct (P2 mf mt x Hx) as (ls & Hl & _). apply HD in Hl as [(-> & -> & ->)|(s & I & -> & ->)].
      + rewrite (ISD _ _ _ _ Hx Hh). exists cx. split; [apply holds_dict_of; [exact N0|now left]|]. exact (EN _ _ _ _ _ _ _ Ph A0 Rh).
      + destruct (PS mf s I) as (x' & Hx' & X). rewrite (ISD _ _ _ _ Hx Hx'). destruct (Forall2_in_l _ _ _ _ Es I) as ([[a b] y] & J & [X1 X2]). cbn [fst snd] in X1, X2. inversion X1; subst.
        exists y. split; [apply holds_dict_of; [exact N0|now right]|]. exact (EN _ _ _ _ _ _ _ X (A mf s I) X2).
    - intros mf mt y Hy. apply holds_dict_of in Hy; [|exact N0]. destruct Hy as [E0|J].
      + inversion E0; subst. exists hx. split; [exact Hh|]. exact (EN _ _ _ _ _ _ _ Ph A0 Rh).
      + destruct (Forall2_in_r _ _ _ _ Es J) as ([mf0 s] & I & [X1 X2]). cbn [fst snd] in X1, X2. inversion X1; subst.
        destruct (PS mf0 s I) as (x' & Hx' & X). exists x'. split; [exact Hx'|]. exact (EN _ _ _ _ _ _ _ X (A mf0 s I) X2).
  Qed.
End Both.
