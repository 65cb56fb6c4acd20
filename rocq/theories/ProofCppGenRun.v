(** Records, sections and loops of the generated C++ functions and of the Python interpreter. *)
From Coq Require Import Ascii String ZArith Bool Lia List.
From Verif Require Import PyBase ProofPyBase PyFloat ModelFortran ModelRecords ModelNum ModelRecipe ModelInterp
  ModelCpp ModelCppTab ModelCppArr SpecCpp SpecCppTab SpecFields SpecCppRead ModelCppGen SpecCppGen.
From Verif Require Import ProofFields ProofTape ProofInterp ProofInterpSec ProofInterpFrame ProofInterpMap ProofCppTab.
From Verif Require Import ProofCppArr ProofCppGenRead ProofCppGenMap ProofCppGenEval ProofCppGenReg ProofCppGenSec.
From Verif Require Import ModelCppGen.
Import ListNotations.
Open Scope Z_scope.

(** the lines read and the position in them *)
Definition still (s s' : pstate) : Prop := ps_lines s' = ps_lines s /\ ps_ofs s' = ps_ofs s.
Definition ahead (s s' : pstate) : Prop := ps_lines s' = ps_lines s /\ (ps_ofs s <= ps_ofs s')%nat.
Lemma still_preorder : preorder still.
Proof. split; [intros s; split; reflexivity|]. intros a b c [A B] [C D]. split; congruence. Qed.
Lemma ahead_preorder : preorder ahead.
Proof. split; [intros s; split; [reflexivity|lia]|]. intros a b c [A B] [C D]. split; [congruence|lia]. Qed.

Lemma skipn_inv {A} n : forall (l : list A) x r, skipn n l = x :: r -> nth_error l n = Some x /\ skipn (S n) l = r.
Proof.
  induction n as [|n IH]; intros [|y l] x r H; cbn [skipn] in H; try discriminate.
  - injection H as -> ->. split; reflexivity.
  - destruct (IH l x r H) as [A1 A2]. split; [exact A1|exact A2].
Qed.
Lemma forall2_len {A B} (P : A -> B -> Prop) l m : Forall2 P l m -> length l = length m.
Proof. induction 1; cbn [length]; congruence. Qed.
Lemma still_same s s' : ps_lines s' = ps_lines s -> ps_ofs s' = ps_ofs s -> ps_log s' = ps_log s -> still s s'.
Proof. intros A B _. split; assumption. Qed.
Lemma still_rest : preorder (same_rest still).
Proof. exact (rest_preorder still still_preorder still_same). Qed.

Section Sim.
  Variables (body ends : list str) (send : str) (o : copts) (ro : ropts) (wo : wopts) (depth : nat) (c : ctrl).
  Hypothesis SR : same_reading o ro.
  Hypothesis NL : Forall plain_line body.
  Notation en := (read_env ro wo depth).
  Notation CL := (c_lines body ends).
  Notation PL := (py_lines body send).

  Lemma exec_ahead : (forall i, keeps (outside ahead) (exec en i)) /\ (forall b, keeps (outside ahead) (exec_block en b)).
  Proof.
    destruct (outside_kept en ahead true ahead_preorder) as [A B].
    - intros s s' E1 E2 _. split; [exact E1|lia].
    - intros ls s H. discriminate H.
    - intros s p q _ SK L. apply skip_ok in SK as (L1 & _). split; [reflexivity|]. cbn [advance ps_ofs]. lia.
    - intros _ s a s' H. unfold do_send in H. cbn [read_env e_write] in H. destruct (skip_blank_lines _ _) as [p|] eqn:SK; [|discriminate H].
      destruct (read_send _ _ _) as [[[r cc] p']|]; [|discriminate H]. injection H as _ <-. apply skip_ok in SK as (L1 & _). split; [reflexivity|]. cbn [ps_ofs advance]. lia.
    - split; [intros i; apply A; discriminate|intros b; apply B; discriminate].
  Qed.

  (** the parts of a record behind the reading *)
  Lemma still_outside : preorder (outside still).
  Proof. exact (both_preorder _ still_rest). Qed.
  Lemma still_dic d s : outside still s (set_dic d s).
  Proof. repeat split; auto. Qed.
  Lemma still_look n k s : ps_look s = Some n -> outside still s (set_look k s).
  Proof. intros H. repeat split; auto. intros N. congruence. Qed.
  Lemma still_fields fs : keeps (outside still) (map_read en fs).
  Proof. apply k_map_read; [exact still_outside|exact still_dic]. Qed.
  Lemma still_list b ls : keeps (outside still) (list_body en b ls).
  Proof.
    apply (proj2 (k_list en (outside still) still_outside still_dic
      (lfor_both en (same_rest still) still_rest (fun l s => conj eq_refl (conj eq_refl (conj (fun H => H) (conj eq_refl eq_refl))))))).
  Qed.
  Lemma still_section {A} name (m : M A) : keeps (outside still) m -> keeps (outside still) (in_section en name m).
  Proof.
    intros H. destruct name as [u|]; [|exact H]. apply outside_sec; [exact still_preorder| |exact H]. intros s s' E1 E2 _. split; assumption.
  Qed.

  (** ** The relation *)

  Record core (wk : str -> option val) (F : vars) (Fs : list vars) (lv : list str) (s : pstate) (st : cstate) : Prop := {
    cr_frel : frel working wk F (ps_dic s) (k_cur st);
    cr_ups : ups Fs (ps_up s) (k_up st);
    cr_loops : k_loops st = ps_loops s;
    cr_lv : loops_ok lv (ps_loops s);
    cr_look : ps_look s = None }.
  Definition pre (wk : str -> option val) (F : vars) (Fs : list vars) (lv : list str) (s : pstate) (st : cstate) : Prop :=
    core wk F Fs lv s st /\ ps_lines s = PL /\ k_lines st = skipn (ps_ofs s) CL.
  Definition fine (s : pstate) (st : cstate) : Prop := (ps_ofs s <= length body)%nat /\ Forall regular_note (k_notes st).

  Lemma guarded_run (m : M unit) b s : ps_look s = None -> guarded b m s = m s.
  Proof. intros H. unfold guarded, mbind, should_proceed. now rewrite H. Qed.
  Lemma proceed_run {A} (d : A) m s : ps_look s = None -> if_proceed d m s = m s.
  Proof. intros H. unfold if_proceed, mbind, should_proceed. now rewrite H. Qed.

  Lemma next_line_numeric st line st1 : next_line o c st = Val (line, st1) -> Forall regular_note (k_notes st1) -> numeric line.
  Proof.
    intros NX NT. apply next_line_grows in NX as (_ & _ & E). rewrite E in NT. cbn [with_notes k_notes] in NT. apply Forall_app in NT as [_ NT].
    inversion NT as [|? ? H _]; subst. cbn [regular_note] in H. now inversion H.
  Qed.
  (** the first line of a record *)
  Lemma take_line {A} (rd : list str -> nat -> result (A * nat)) s st a s1 line st1 :
    ps_lines s = PL -> k_lines st = skipn (ps_ofs s) CL -> read_with rd s = (Ok a, s1) ->
    (forall ls p x q, rd ls p = Ok (x, q) -> (p < q)%nat) -> (ps_ofs s1 <= length body)%nat ->
    next_line o c st = Val (line, st1) ->
    exists p q, p = ps_ofs s /\ rd PL p = Ok (a, q) /\ s1 = advance p q s /\ (p < length body)%nat /\ (q <= length body)%nat /\
      nth_error CL p = Some line /\ st1 = with_notes [Numbers [line]] (with_lines (skipn (S p) CL) st).
  Proof.
    intros PLs KL RW ADV OB NX. unfold read_with in RW. rewrite PLs in RW.
    destruct (skip_blank_lines PL (ps_ofs s)) as [p|] eqn:SK; [|discriminate RW].
    destruct (rd PL p) as [[x q]|] eqn:RD; [|discriminate RW]. injection RW as -> <-. cbn [advance ps_ofs] in OB.
    pose proof (ADV _ _ _ _ RD) as PQ. pose proof SK as SK'. apply skip_ok in SK' as (L1 & _).
    assert (p = ps_ofs s) as -> by (apply (skip_line body ends send NL _ _ SK); lia).
    apply next_line_grows in NX as (_ & K1 & K2). rewrite KL in K1.
    exists (ps_ofs s), q. split; [reflexivity|]. split; [exact RD|]. split; [reflexivity|]. split; [lia|]. split; [exact OB|].
    symmetry in K1. destruct (skipn_inv _ _ _ _ (eq_sym K1)) as [NE SE].
    split; [exact NE|]. now rewrite K2, SE.
  Qed.

  (** the fields of the first line *)
  Definition line_vals (line : str) (vs : list num) (fs : cfields) : Prop :=
    Forall2 (fun v p => forall w, read_field o (snd (fst p)) line (fst (fst p)) = Val w -> num_alike v w) vs fs.
  Lemma core_fields wk F Fs lv N U outer up cur cur' fs vs line s st s' st' :
    core wk F Fs lv s st -> ctx F Fs N U outer -> Forall2 sub up Fs -> reg_fields up lv cur fs = Some cur' -> sub cur' F -> incl (cf_names fs) N ->
    line_vals line vs fs ->
    map_read en (combine (map vn vs) (map snd fs)) s = (Ok tt, s') -> run_fields o up lv cur line fs st = Val st' -> Forall regular_note (k_notes st') ->
    core wk F Fs lv s' st' /\ (exists d, s' = set_dic d s) /\ k_up st' = k_up st /\ k_lines st' = k_lines st.
  Proof.
    intros C X SU RG SF IN LV MR RF NT.
    destruct (read_both en o working wk F up lv line fs vs cur cur' s st s' st') as ((d & E) & FR & (K1 & K2 & K3)); auto; try apply C.
    { intros x I. apply (cx_work _ _ _ _ _ X). now apply IN. }
    split; [|eauto]. subst s'. cbn [set_dic ps_dic] in FR. split; cbn [set_dic ps_dic ps_up ps_loops ps_look]; try apply C; auto.
    - rewrite K2. apply C.
    - rewrite K3. apply C.
  Qed.
  Lemma cont_line_vals line r f : number_line line ->
    reads_as ro TFloat (cfield line 0) (C1 r) -> reads_as ro TFloat (cfield line 1) (C2 r) -> reads_as ro TInt (cfield line 2) (L1 r) ->
    reads_as ro TInt (cfield line 3) (L2 r) -> reads_as ro TInt (cfield line 4) (N1 r) -> reads_as ro TInt (cfield line 5) (N2 r) ->
    line_vals line [C1 r; C2 r; L1 r; L2 r; N1 r; N2 r] (cont_fields f) /\
    line_vals line [C1 r; C2 r; L1 r; L2 r] (head_fields f) /\
    line_vals line [C1 r; C2 r; L1 r; L2 r; N2 r] (tab2_fields f).
  Proof.
    intros N R0 R1 R2 R3 R4 R5.
    assert (FA : forall t j v (e : expr), (j < 6)%nat -> reads_as ro t (cfield line j) v ->
      forall w, read_field o (snd (fst (j, t, e))) line (fst (fst (j, t, e))) = Val w -> num_alike v w).
    { intros t j v e J R w W. cbn [fst snd] in W. eapply field_alike; eauto. }
    split; [|split]; unfold line_vals, cont_fields, tab2_fields, head_fields; cbn [app];
      repeat (apply Forall2_cons; [apply FA; [lia|assumption]|]); apply Forall2_nil.
  Qed.
  Lemma int_field_same line j v z : number_line line -> (j < 6)%nat -> reads_as ro TInt (cfield line j) v -> cpp_read_int_field line j = Val z -> v = NInt z.
  Proof.
    intros N J R H. apply (field_alike o ro TInt line j v (NInt z) SR N J R). cbn [read_field]. now rewrite H.
  Qed.

  (** ** Sections *)

  Definition wk_sec (x : str) : option val := if str_eqb x $"__up" then Some VUp else None.
  Lemma frel_new F : frel working wk_sec F [(KStr $"__up", VUp)] {| cf_vars := []; cf_dict := []; cf_shift := [] |}.
  Proof.
    split; cbn [cf_vars cf_dict vget dget key_eqb map fst]; try discriminate; try (intros; reflexivity); try (intros; assumption).
    - intros x X. destruct (str_eqb x $"__up") eqn:E; [|reflexivity]. exfalso. apply X. apply str_eqb_eq in E. subst x. now left.
    - apply NoDup_cons; [intros []|apply NoDup_nil].
    - apply NoDup_nil.
  Qed.
  Lemma ctx_in F Fs N U outer F' N' U' : ctx F Fs N U outer -> (forall x k, kget x F' = Some k -> In x N') -> not_hiding N' U' outer -> incl U' U ->
    ctx F' (F :: Fs) N' U' (N' ++ outer).
  Proof.
    intros C H [DR D] IU.
    assert (W : forall x, In x N' -> ~ In x working).
    { intros x I J. apply (DR x I). unfold reserved, working in *. cbn [In] in *. tauto. }
    assert (NEW : forall n G x k j, In x U' -> kget x F' = Some k -> nth_error (F :: Fs) n = Some G -> kget x G = Some j -> False).
    { intros n G x k j IX K NG J. apply (D x (H x k K) IX). eapply (cx_out _ _ _ _ _ C); [eapply nth_error_In; exact NG|exact J]. }
    split.
    - intros [|m] [|n] G G' x k j IX A B K J; cbn [nth_error] in A, B; auto.
      + injection A as <-. exfalso. eapply NEW; eauto.
      + injection B as <-. exfalso. eapply NEW; eauto.
      + f_equal. exact (cx_sep _ _ _ _ _ C m n G G' x k j (IU x IX) A B K J).
    - intros G x k [<-|I] K; apply in_or_app; [left; eauto|right]. eapply (cx_out _ _ _ _ _ C); eauto.
    - intros G x k [<-|I] K; [apply W; eauto|]. eapply (cx_plain _ _ _ _ _ C); eauto.
    - exact W.
  Qed.

  Lemma section_both {A} (pb : M A) (cb : cstate -> cpp cstate) F' wk F Fs lv x q s st a s' st' :
    core wk F Fs lv s st -> kget x F = Some KSec -> ~ In x working -> forallb (index_ok lv) q = true ->
    (forall y k, kget y F' = Some k -> ~ In y working) ->
    keeps (outside ahead) pb -> (forall p r, cb p = Val r -> grows p r) ->
    (forall s1 st1 a1 s2 st2, core wk_sec F' (F :: Fs) lv s1 st1 -> ps_lines s1 = ps_lines s -> ps_ofs s1 = ps_ofs s -> k_lines st1 = k_lines st ->
       pb s1 = (Ok a1, s2) -> cb st1 = Val st2 -> fine s2 st2 ->
       core wk_sec F' (F :: Fs) lv s2 st2 /\ k_lines st2 = skipn (ps_ofs s2) CL /\ k_up st2 = k_up st1) ->
    (run _ <- open_section en (x, q); run r <- pb; run _ <- close_section; ret r) s = (Ok a, s') -> in_frame (x, q) cb st = Val st' -> fine s' st' ->
    core wk F Fs lv s' st' /\ k_lines st' = skipn (ps_ofs s') CL /\ k_up st' = k_up st.
  Proof.
    intros C KX WX IX WF KP GR BODY PY CP FI.
    apply mbind_ok in PY as ([] & s1 & O1 & PY). apply mbind_ok in PY as (a1 & s2 & P2 & PY). apply mbind_ok in PY as ([] & s3 & C3 & PY).
    injection PY as <- <-. unfold in_frame in CP. cbs CP as zs EZ. destruct (store_open x zs (k_cur st)) as [[found f]| |] eqn:SO; try discriminate. cbn [cbind] in CP.
    destruct (open_both en wk F x q s st s1 zs found f lv eq_refl (cr_frel _ _ _ _ _ _ C) (cr_loops _ _ _ _ _ _ C) (cr_lv _ _ _ _ _ _ C) KX WX IX O1 EZ SO)
      as (d1 & pin & E1 & FR1 & AL). destruct found as [| | |d| | | |]; try discriminate.
    cbs CP as st2 E2. destruct (KP _ _ _ P2) as (L2 & U2 & _ & K2 & A2).
    assert (ND : Forall regular_note (k_notes (with_notes match d with [] => [] | _ => [Again x] end (with_frames {| cf_vars := []; cf_dict := d; cf_shift := [] |} (f :: k_up st) st)))
        /\ Forall regular_note (k_notes st2)).
    { assert (R2 : Forall regular_note (k_notes st2)).
      { destruct (k_up st2) as [|f1 up2]; [discriminate|]. destruct (put_path _ _ _); try discriminate. injection CP as <-. exact (proj2 FI). }
      split; [|exact R2]. eapply grows_regular; [eapply GR; exact E2|exact R2]. }
    destruct ND as [N1 N2].
    assert (d = []) as ->.
    { destruct d as [|p d]; [reflexivity|]. cbn [with_notes k_notes] in N1. apply Forall_app in N1 as [_ B]. inversion B; subst. contradiction. }
    apply alike_nil in AL. subst pin. subst s1. cbn [dset] in P2.
    assert (OF : (ps_ofs s2 <= length body)%nat).
    { unfold close_section in C3. rewrite U2 in C3. cbn [set_up ps_up] in C3. injection C3 as <-. exact (proj1 FI). }
    match type of E2 with cb ?w = _ => set (st1 := w) in * end.
    match type of P2 with pb ?w = _ => set (s1 := w) in * end.
    assert (C1 : core wk_sec F' (F :: Fs) lv s1 st1).
    { split; try apply C.
      - apply frel_new.
      - cbn. apply (ups_cons wk); [exact FR1|exact KX|apply C]. }
    destruct (BODY s1 st1 a1 s2 st2 C1 eq_refl eq_refl eq_refl P2 E2 (conj OF N2)) as (C2 & KL2 & KU2).
    unfold close_section in C3. rewrite U2 in C3. cbn [s1 set_up ps_up] in C3. injection C3 as <-.
    rewrite KU2 in CP. cbn [st1 with_notes with_frames k_up] in CP.
    destruct (put_path _ _ (VDict (cf_dict f))) as [| | |d'| | | |] eqn:PP; try discriminate. injection CP as <-.
    assert (AS : alike_val (VDict (ddel (KStr $"__up") (ps_dic s2))) (VDict (store_vars (cf_vars (k_cur st2)) (cf_dict (k_cur st2))))).
    { eapply stored_alike; [apply C2|exact WF| |].
      - intros y Y. destruct (str_eqb y $"__up") eqn:EY.
        + apply str_eqb_eq in EY. subst y. apply dget_ddel_gone. apply C2.
        + rewrite dget_ddel_keep by (intros Q; injection Q as ->; discriminate EY). rewrite (fr_work _ _ _ _ _ (cr_frel _ _ _ _ _ _ C2) y Y). unfold wk_sec. now rewrite EY.
      - intros k K. apply dget_ddel_keep. apply K. now left. }
    destruct (put_both wk F d1 f x zs _ _ d' FR1 KX WX AS PP) as (e & PE & FE).
    split; [|split; [exact KL2|reflexivity]].
    split; cbn [set_up with_frames ps_dic k_cur ps_up k_up ps_loops k_loops ps_look]; try apply C; try apply C2.
    match goal with |- frel _ _ _ ?d _ => change d with (outer {| fr_dic := d1; fr_name := x; fr_idx := zs |} (ddel (KStr $"__up") (ps_dic s2))) end.
    unfold outer, frame_keys. cbn [fr_name fr_idx fr_dic]. rewrite PE. exact FE.
  Qed.
  Definition body_ok {A} (pb : M A) (cb : cstate -> cpp cstate) (name : option extvar) (breg : list vars -> vars -> option vars) (names : list str) (us : list str)
    (lv : list str) (up : list vars) (c1 : vars) (s : pstate) (st : cstate) : Prop :=
    forall wk' F' Fs' N' U' outer' up' v w s1 st1 a1 s2 st2, core wk' F' Fs' lv s1 st1 -> ctx F' Fs' N' U' outer' -> Forall2 sub up' Fs' -> breg up' v = Some w ->
       sub w F' -> incl names N' -> incl us U' -> vars_in up c1 name = (up', v) -> ps_lines s1 = ps_lines s -> ps_ofs s1 = ps_ofs s -> k_lines st1 = k_lines st ->
       pb s1 = (Ok a1, s2) -> cb st1 = Val st2 -> fine s2 st2 ->
       core wk' F' Fs' lv s2 st2 /\ k_lines st2 = skipn (ps_ofs s2) CL /\ k_up st2 = k_up st1.
  Lemma named_both {A} (pb : M A) (cb : cstate -> cpp cstate) name breg names us wk F Fs lv N U outer up c1 cur' s st a s' st' :
    core wk F Fs lv s st -> ctx F Fs N U outer -> Forall2 sub up Fs -> reg_named up lv c1 name breg = Some cur' -> sub cur' F ->
    incl (named name names) N -> incl us U -> named_apart outer name names us ->
    keeps (outside still) pb -> (forall p r, cb p = Val r -> grows p r) ->
    (forall u v w, breg u v = Some w -> adds v w names) ->
    body_ok pb cb name breg names us lv up c1 s st ->
    in_section en name pb s = (Ok a, s') -> in_named name cb st = Val st' -> fine s' st' ->
    core wk F Fs lv s' st' /\ k_lines st' = skipn (ps_ofs s') CL /\ k_up st' = k_up st.
  Proof.
    intros C X SU RG SF IN IU AP KP GR AD BODY PY CP FI. destruct name as [[x q]|]; cbn [in_section in_named reg_named named named_apart fst vars_in] in *.
    - apply reg_section_inv in RG as (KN & IX & E & KX & (w & W)).
      assert (X' : ctx w (F :: Fs) names us (names ++ outer)).
      { eapply ctx_in; [exact X| |exact AP|exact IU]. intros y k K. apply AD in W as [_ W]. apply W in K as [K|K]; [discriminate K|exact K]. }
      eapply (section_both pb cb w); eauto.
      + apply (cx_work _ _ _ _ _ X). apply IN. now left.
      + intros y k K. eapply (cx_plain _ _ _ _ _ X'); [now left|exact K].
      + intros p r v H. destruct (KP _ _ _ H) as (K1 & K2 & K3 & K4 & K5 & K6). repeat split; auto. lia.
      + intros s1 st1 a1 s2 st2 C1 Q1 Q2 Q3 Q4 Q5 Q6. subst cur'.
        eapply (BODY wk_sec w (F :: Fs) names us (names ++ outer) (kadd x KSec c1 :: up) [] w); eauto.
        * apply sub_refl.
        * intros y Y. exact Y.
        * intros y Y. exact Y.
    - eapply (BODY wk F Fs N U outer up c1 cur'); eauto.
  Qed.

  (** ** Tables *)

  Lemma table_both wk F Fs lv up0 cur0 cols pl s st s' st' :
    core wk F Fs lv s st -> (forall x, In x (map fst cols) -> kget x F = Some KTab /\ ~ In x working /\ known x lv = false) -> NoDup (map fst cols) ->
    Forall (fun p => alike_val (fst (snd p)) (snd (snd p))) cols ->
    NoDup (map fst pl) -> (forall p, In p pl <-> In p (map (fun p => (fst p, fst (snd p))) cols)) ->
    map_read en (map (fun p => (snd p, EVar (fst p) [])) pl) s = (Ok tt, s') ->
    run_columns up0 cur0 (map (fun p => (fst p, snd (snd p))) cols) st = Val st' -> Forall regular_note (k_notes st') ->
    core wk F Fs lv s' st' /\ k_lines st' = k_lines st /\ k_up st' = k_up st /\ ps_ofs s' = ps_ofs s.
  Proof.
    intros C HK ND AL NP EQ MR RC NT.
    destruct (columns_both up0 cols cur0 st wk F (ps_dic s) st' (cr_frel _ _ _ _ _ _ C)) as (FR & (K1 & K2 & K3) & AB); auto.
    { intros x I. destruct (HK x I) as (H1 & H2 & _). auto. }
    assert (SAME : forall x, In x (map fst pl) <-> In x (map fst cols)).
    { intros x. rewrite !in_map_iff. split.
      - intros (p & <- & I). apply EQ in I. apply in_map_iff in I as (p' & <- & I). exists p'. auto.
      - intros (p & <- & I). exists (fst p, fst (snd p)). split; [reflexivity|]. apply EQ. apply in_map_iff. eauto. }
    assert (MN : map_fields en (map (fun p => (snd p, EVar (fst p) [])) pl) s = (Ok false, set_dic (sets pl (ps_dic s)) s)).
    { apply map_new; [exact NP|]. intros x I. apply SAME in I. split; [|auto]. destruct (HK x I) as (_ & _ & KN). eapply lget_known; [apply C|exact KN]. }
    unfold map_read in MR. cbn [map_tries] in MR. unfold mbind in MR. rewrite MN in MR. injection MR as <-.
    split; [|auto]. split; cbn [set_dic ps_dic ps_up ps_loops ps_look]; try apply C.
    - eapply frel_ext; [exact FR| |apply sets_nodup, (cr_frel _ _ _ _ _ _ C)].
      apply sets_ext; [exact NP| |intros p; apply EQ]. rewrite map_map. cbn [fst]. exact ND.
    - rewrite K2. apply C.
    - rewrite K3. apply C.
  Qed.
  Lemma alike_ints (l : list num) m : l = map NInt m -> alike_val (VList (map vn l)) (ints m).
  Proof.
    intros ->. unfold ints. constructor. induction m as [|z m IH]; cbn [map]; constructor; [|exact IH]. constructor. reflexivity.
  Qed.
  Lemma alike_floats l m : Forall2 same_number l m -> alike_val (VList (map vn l)) (floats m).
  Proof.
    intros H. unfold floats. constructor. induction H as [|x y l m E H IH]; cbn [map]; constructor; [|exact IH]. constructor. unfold num_alike, num_of. now destruct y.
  Qed.
  Lemma ints_table nr p vals q validate lines' t r : 0 < nr ->
    (forall k, (k < 2 * Z.to_nat nr)%nat -> numeric (nth (p + k / 6) CL [])) ->
    (forall k, (k < 2 * Z.to_nat nr)%nat -> exists z, read_fort_int (field_no (skipn p CL) 0 k) = Ok z) ->
    read_endf_numbers ro true PL (2 * nr) p = Ok (vals, q) -> (q <= length body)%nat -> lines' = skipn p CL ->
    (let* (interp, r1) := cpp_vec validate c cpp_read_int_field (2 * Z.to_nat nr) lines' in let* t := split_pairs (Z.to_nat nr) interp in Val (t, r1)) = Val (t, r) ->
    evens vals = map NInt (fst t) /\ odds vals = map NInt (snd t) /\ r = skipn q CL.
  Proof.
    intros P NU RI RN Q -> H. destruct (cpp_vec validate c cpp_read_int_field (2 * Z.to_nat nr) (skipn p CL)) as [[xs r1]| |] eqn:V; try discriminate. cbn [cbind] in H.
    replace (2 * Z.to_nat nr)%nat with (Z.to_nat (2 * nr)) in * by lia.
    destruct (ints_both body ends send o ro SR NL validate c (2 * nr) p vals q xs r1 ltac:(lia) NU RI RN Q V) as (-> & ->).
    apply vec_points in V as (_ & _ & G); [|lia]. apply forall2_len in G. rewrite seq_length in G.
    rewrite split_evens in H by lia. cbn [cbind] in H. injection H as <- <-. cbn [fst snd]. destruct (evens_odds_map NInt xs) as [E1 E2]. auto.
  Qed.
  Lemma floats_table np p vals q validate lines' u r : 0 < np ->
    (forall k, (k < 2 * Z.to_nat np)%nat -> numeric (nth (p + k / 6) CL [])) ->
    read_endf_numbers ro false PL (2 * np) p = Ok (vals, q) -> (q <= length body)%nat -> lines' = skipn p CL ->
    (let* (data, r1) := cpp_vec validate c (cpp_read_endf_field (co_accept o) (co_preserve o)) (2 * Z.to_nat np) lines' in let* t := split_pairs (Z.to_nat np) data in Val (t, r1)) = Val (u, r) ->
    Forall2 same_number (evens vals) (fst u) /\ Forall2 same_number (odds vals) (snd u) /\ r = skipn q CL.
  Proof.
    intros P NU RN Q -> H. destruct (cpp_vec validate c _ (2 * Z.to_nat np) (skipn p CL)) as [[xs r1]| |] eqn:V; try discriminate. cbn [cbind] in H.
    replace (2 * Z.to_nat np)%nat with (Z.to_nat (2 * np)) in * by lia.
    destruct (floats_both body ends send o ro SR NL validate c (2 * np) p vals q xs r1 ltac:(lia) NU RN Q V) as (F & ->).
    apply vec_points in V as (_ & _ & G); [|lia]. apply forall2_len in G. rewrite seq_length in G.
    rewrite split_evens in H by lia. cbn [cbind] in H. injection H as <- <-. cbn [fst snd]. destruct (evens_odds_rel _ _ _ F). auto.
  Qed.

  (** ** Loops *)

  Lemma stop_value wk F Fs lv N U outer up cur s st e z v s1 : core wk F Fs lv s st -> ctx F Fs N U outer -> Forall2 sub (cur :: up) (F :: Fs) ->
    incl (expr_names e) U -> int_expr up lv cur e = true -> ceval up lv cur st e = Val z -> eval_ctl en e s = (Ok v, s1) -> v = vint z /\ s1 = s.
  Proof.
    intros C X S IU IE CE EV. unfold eval_ctl, eval_known in EV.
    pose proof (eval_both wk F Fs N U outer up lv cur X S s st (cr_frel _ _ _ _ _ _ C) (cr_ups _ _ _ _ _ _ C) (cr_loops _ _ _ _ _ _ C) (cr_lv _ _ _ _ _ _ C) (e_depth en) e z IU IE CE) as O.
    unfold outcome in O. destruct (eval_expr (e_depth en) (scope_of s) true true false e) as [t|er]; [subst t|discriminate EV].
    cbn [bind] in EV. injection EV as <- <-. auto.
  Qed.
  Lemma core_in wk F Fs lv v i s st : 0 <= i -> core wk F Fs lv s st ->
    core wk F Fs (v :: lv) (set_loops ((v, i) :: ps_loops s) s) (with_loops ((v, i) :: k_loops st) st).
  Proof.
    intros I C. split; cbn [set_loops with_loops ps_dic k_cur ps_up k_up ps_loops k_loops ps_look]; try apply C.
    - now rewrite (cr_loops _ _ _ _ _ _ C).
    - destruct (cr_lv _ _ _ _ _ _ C) as [A B]. split; [cbn [map fst]; congruence|]. constructor; assumption.
  Qed.
  Lemma core_out wk F Fs lv v i L s st : core wk F Fs (v :: lv) s st -> ps_loops s = (v, i) :: L ->
    core wk F Fs lv (set_loops L s) (with_loops (List.tl (k_loops st)) st).
  Proof.
    intros C E. pose proof (cr_loops _ _ _ _ _ _ C) as K. rewrite E in K. pose proof (cr_lv _ _ _ _ _ _ C) as LO. rewrite E in LO.
    split; cbn [set_loops with_loops ps_dic k_cur ps_up k_up ps_loops k_loops ps_look]; try apply C.
    - now rewrite K.
    - destruct LO as [A B]. inversion B; subst. cbn [map fst] in A. injection A as A. split; assumption.
  Qed.

  Lemma iterate_ahead v (pb : M unit) : keeps (outside ahead) pb -> forall is_ s a s', iterate v is_ pb s = (Ok a, s') -> ahead s s'.
  Proof.
    intros KP. induction is_ as [|i r IH]; intros s a s' H; cbn [iterate] in H.
    - injection H as _ <-. apply (po_refl _ ahead_preorder).
    - apply mbind_ok in H as ([] & s1 & H1 & H). injection H1 as <-. apply mbind_ok in H as ([] & s2 & H2 & H).
      destruct (KP _ _ _ H2) as (_ & _ & _ & _ & A2). apply IH in H. destruct A2 as [B1 B2], H as [B3 B4]. cbn [set_loops ps_lines ps_ofs] in B1, B2. split; [congruence|lia].
  Qed.
  Lemma turns_both v (pb : M unit) stop cb b wk F Fs lv : known v lv = false -> keeps (outside ahead) pb -> (forall p r, cb p = Val r -> grows p r) ->
    (forall s st s' st', pre wk F Fs (v :: lv) s st -> pb s = (Ok tt, s') -> cb st = Val st' -> fine s' st' ->
      pre wk F Fs (v :: lv) s' st' /\ k_up st' = k_up st) ->
    forall is_ L s st s' st', Forall (fun i => 0 <= i) is_ -> ldel v (ps_loops s) = L -> pre wk F Fs lv (set_loops L s) st ->
      iterate v is_ pb s = (Ok tt, s') -> turns v stop with_loops k_loops cb b is_ st = Val st' -> fine s' st' ->
      pre wk F Fs lv (set_loops L s') st' /\ k_up st' = k_up st /\ ldel v (ps_loops s') = L.
  Proof.
    intros KV KP GR BODY. induction is_ as [|i r IH]; intros L s st s' st' PI LD P IT TU FI; cbn [iterate turns] in IT, TU.
    - injection IT as <-. cbs TU as b' EB. destruct (b' =? b); [|discriminate]. injection TU as <-. auto.
    - apply mbind_ok in IT as ([] & s1 & H1 & IT). injection H1 as <-. apply mbind_ok in IT as ([] & s2 & H2 & IT).
      cbs TU as b' EB. destruct (b' =? b); [|discriminate]. cbs TU as st2 E2. inversion PI as [|? ? P0 PR]; subst.
      destruct P as (C & PLs & KLs). pose proof (core_in wk F Fs lv v i _ _ P0 C) as C1.
      rewrite (cr_loops _ _ _ _ _ _ C) in E2. cbn [set_loops ps_loops] in E2, C1. 
      pose proof (iterate_ahead v pb KP _ _ _ _ IT) as [A1 A2].
      assert (F2 : fine s2 st2).
      { split; [destruct FI as [O _]; lia|]. eapply grows_regular; [|exact (proj2 FI)]. apply (turns_grows (fun s => s)) in TU; [|reflexivity|exact GR].
        eapply grows_trans; [|exact TU]. now apply grows_same. }
      assert (P1 : pre wk F Fs (v :: lv) (set_loops ((v, i) :: ldel v (ps_loops s)) s) (with_loops ((v, i) :: ldel v (ps_loops s)) st)).
      { split; [|split; [exact PLs|exact KLs]]. rewrite (cr_loops _ _ _ _ _ _ C) in C1. exact C1. }
      destruct (BODY _ _ _ _ P1 H2 E2 F2) as ((C2 & PL2 & KL2) & KU2).
      destruct (KP _ _ _ H2) as (LL2 & _). cbn [set_loops ps_loops] in LL2.
      pose proof (core_out _ _ _ _ _ _ _ _ _ C2 LL2) as C3.
      assert (LD2 : ldel v (ps_loops s2) = ldel v (ps_loops s)).
      { rewrite LL2. apply ldel_head. }
      assert (P2 : pre wk F Fs lv (set_loops (ldel v (ps_loops s)) s2) (with_loops (List.tl (k_loops st2)) st2)).
      { split; [exact C3|]. split; [exact PL2|exact KL2]. }
      destruct (IH _ _ _ _ _ PR LD2 P2 IT TU FI) as (Q1 & Q2 & Q3).
      split; [exact Q1|]. split; [rewrite Q2; exact KU2|exact Q3].
  Qed.
  Lemma for_both_run v a b (pb : M unit) cb wk F Fs N U outer lv up cur s st s' st' : ctx F Fs N U outer -> Forall2 sub (cur :: up) (F :: Fs) ->
    incl (expr_names b) U -> loop_ok up lv cur v a b = true -> keeps (outside ahead) pb -> (forall p r, cb p = Val r -> grows p r) ->
    (forall s st s' st', pre wk F Fs (v :: lv) s st -> pb s = (Ok tt, s') -> cb st = Val st' -> fine s' st' ->
      pre wk F Fs (v :: lv) s' st' /\ k_up st' = k_up st) ->
    pre wk F Fs lv s st -> cycle_for_loop en v a b pb s = (Ok tt, s') ->
    for_loop v a (fun s => ceval up lv cur s b) with_loops k_loops cb st = Val st' -> fine s' st' ->
    pre wk F Fs lv s' st' /\ k_up st' = k_up st.
  Proof.
    intros X S IU LK KP GR BODY P CY FL FI. destruct P as (C & PLs & KLs).
    unfold loop_ok in LK. apply andb_true_iff in LK as [LK IE]. apply andb_true_iff in LK as [LK ST]. apply andb_true_iff in LK as [KV _].
    apply negb_true_iff in KV. destruct a as [|?|dz n| | | | | |]; try discriminate ST. destruct n as [a0| |]; try discriminate ST. apply Z.leb_le in ST.
    unfold for_loop in FL. cbs FL as b0 EB. cbs FL as u EU.
    unfold cycle_for_loop in CY. apply mbind_ok in CY as (va & s1 & H1 & CY). apply mbind_ok in CY as (vb & s2 & H2 & CY).
    assert (va = vint a0 /\ s1 = s) as [-> ->].
    { unfold eval_ctl, eval_known in H1. rewrite eval_expr_eq in H1. cbn [bind] in H1. injection H1 as <- <-. auto. }
    destruct (stop_value wk F Fs lv N U outer up cur s st b b0 vb s2 C X S IU IE EB H2) as [-> ->].
    apply mbind_ok in CY as (za & s3 & H3 & CY). injection H3 as <- <-. apply mbind_ok in CY as (zb & s4 & H4 & CY). injection H4 as <- <-.
    destruct (lget v (ps_loops s)) eqn:LG; [discriminate|]. apply mbind_ok in CY as ([] & s5 & IT & CY).
    assert (LS : set_loops (ps_loops s) s = s) by now destruct s.
    assert (RG : Forall (fun i => 0 <= i) (zrange a0 b0)).
    { apply Forall_forall. intros i I. apply zrange_in in I. lia. }
    assert (F5 : fine s5 st').
    { split; [|exact (proj2 FI)]. destruct FI as [O _]. destruct (a0 <=? b0); injection CY as <-; exact O. }
    assert (P1 : pre wk F Fs lv (set_loops (ps_loops s) s) st) by (rewrite LS; split; [exact C|split; assumption]).
    destruct (turns_both v pb _ cb b0 wk F Fs lv KV KP GR BODY _ _ _ _ _ _ RG (ldel_none _ _ LG) P1 IT FL F5) as (Q1 & Q2 & Q3).
    split; [|exact Q2]. destruct (a0 <=? b0) eqn:LE.
    - injection CY as <-. rewrite Q3. exact Q1.
    - injection CY as <-. apply Z.leb_gt in LE. rewrite zrange_empty in IT by lia. injection IT as <-. rewrite LS in Q1. exact Q1.
  Qed.

  (** ** Lists *)

  Section Lists.
    Variables (npl : Z) (i1 : nat) (vals : list num).
    Hypothesis NP : 0 < npl.
    Hypothesis LV : length vals = Z.to_nat npl.
    Hypothesis VV : forall k v, nth_error vals k = Some v ->
      plain_line (nth (i1 + k / 6) CL []) /\ reads_as ro TFloat (cfield (nth (i1 + k / 6) CL []) (k mod 6)) v.

    (** the line with element [pos] *)
    Definition line_of (pos : nat) : nat := (Nat.min pos (Z.to_nat npl - 1) / 6)%nat.
    Definition linv (pos : nat) (l : lrun) : Prop :=
      lr_i l = Z.of_nat pos /\ (lr_j l + 6 * line_of pos = pos)%nat /\ lr_line l = nth (i1 + line_of pos) CL [] /\
      k_lines (lr_st l) = skipn (S (i1 + line_of pos)) CL /\ numeric (lr_line l).

    Lemma list_expr_both wk F Fs lv N U outer up cur cur' e pos s l ls s' l' :
      core wk F Fs lv s (lr_st l) -> ctx F Fs N U outer -> Forall2 sub up Fs -> reg_field up lv TFloat cur e = Some cur' -> sub cur' F -> incl (field_name e) N ->
      linv pos l -> list_expr en e (vals, pos) s = (Ok ls, s') -> clist_expr o c npl up lv cur e l = Val l' -> Forall regular_note (k_notes (lr_st l')) ->
      core wk F Fs lv s' (lr_st l') /\ ls = (vals, S pos) /\ linv (S pos) l' /\ k_up (lr_st l') = k_up (lr_st l).
    Proof.
      intros C X SU RG SF IN (I1 & I2 & I3 & I4 & I5) PY CP NT. unfold list_expr in PY. cbn [read_env e_write] in PY.
      destruct (nth_error vals pos) as [v|] eqn:NV; [|discriminate]. destruct (VV pos v NV) as [NB0 RD].
      assert (LT : (pos < Z.to_nat npl)%nat) by (rewrite <- LV; apply nth_error_Some; congruence).
      assert (LO : line_of pos = (pos / 6)%nat) by (unfold line_of; f_equal; lia).
      assert (DM : pos = (6 * (pos / 6) + pos mod 6)%nat) by (apply Nat.div_mod; lia).
      assert (JB : (pos mod 6 < 6)%nat) by (apply Nat.mod_upper_bound; lia).
      assert (J : lr_j l = (pos mod 6)%nat) by lia.
      assert (NB : number_line (nth (i1 + pos / 6) CL [])) by (rewrite <- LO, <- I3; split; [rewrite I3, LO; exact NB0|exact I5]).
      apply mbind_ok in PY as ([] & s1 & MR & PY). injection PY as <- <-.
      unfold clist_expr in CP. cbs CP as st1 RF.
      assert (RF' : run_fields o up lv cur (lr_line l) [(lr_j l, TFloat, e)] (lr_st l) = Val st1).
      { cbn [run_fields]. rewrite RG, RF. reflexivity. }
      assert (N1 : Forall regular_note (k_notes st1)).
      { destruct (_ && _); [|injection CP as <-; exact NT]. cbs CP as [line st2] NX. injection CP as <-. cbn [lr_st] in NT.
        apply next_line_grows in NX as (G & _). eapply grows_regular; eauto. }
      destruct (core_fields wk F Fs lv N U outer up cur cur' [(lr_j l, TFloat, e)] [v] (lr_line l) s (lr_st l) s1 st1) as (C1 & (d & E1) & U1 & L1); auto.
      - cbn [reg_fields]. now rewrite RG.
      - cbn [cf_names flat_map snd]. now rewrite app_nil_r.
      - apply Forall2_cons; [|apply Forall2_nil]. cbn [fst snd]. intros w W. rewrite I3, LO in W. rewrite J in W. eapply field_alike; eauto.
      - destruct (lr_j l <? 5)%nat eqn:JJ.
        + apply Nat.ltb_lt in JJ. assert (B : (5 <? S (lr_j l))%nat = false) by (apply Nat.ltb_ge; lia). rewrite B in CP. cbn [andb] in CP. injection CP as <-. cbn [lr_st].
          split; [exact C1|]. split; [reflexivity|]. split; [|exact U1].
          assert (LO' : line_of (S pos) = line_of pos).
          { rewrite LO. unfold line_of. symmetry. destruct (Nat.min_dec (S pos) (Z.to_nat npl - 1)) as [M|M]; rewrite M.
            - apply (Nat.div_unique _ _ _ (S (pos mod 6))); lia.
            - assert (Z.to_nat npl - 1 = pos \/ Z.to_nat npl - 1 = S pos)%nat as [->| ->] by lia; [reflexivity|]. apply (Nat.div_unique _ _ _ (S (pos mod 6))); lia. }
          unfold linv. cbn [lr_i lr_j lr_line lr_st]. rewrite LO'. split; [lia|]. split; [lia|]. split; [exact I3|]. split; [congruence|exact I5].
        + apply Nat.ltb_ge in JJ. assert (B : (5 <? S (lr_j l))%nat = true) by (apply Nat.ltb_lt; lia). rewrite B in CP. cbn [andb] in CP.
          destruct (lr_i l + 1 <? npl) eqn:K.
          * apply Z.ltb_lt in K. cbs CP as [line st2] NX. injection CP as <-. cbn [lr_st] in *.
            pose proof (next_line_numeric _ _ _ NX NT) as NU.
            apply next_line_grows in NX as (_ & K1 & K2). rewrite L1, I4 in K1. symmetry in K1. destruct (skipn_inv _ _ _ _ (eq_sym K1)) as [NE SE].
            assert (LO' : line_of (S pos) = S (line_of pos)).
            { rewrite LO. unfold line_of. rewrite Nat.min_l by lia. symmetry. apply (Nat.div_unique _ _ _ 0); lia. }
            split; [|split; [reflexivity|split]].
            -- rewrite K2. destruct C1 as [A1 A2 A3 A4 A5]. split; assumption.
            -- unfold linv. cbn [lr_i lr_j lr_line lr_st]. rewrite LO'. split; [lia|]. split; [lia|]. split; [|split; [|exact NU]].
               ++ symmetry. rewrite Nat.add_succ_r. now apply nth_error_nth.
               ++ rewrite <- SE. now rewrite !Nat.add_succ_r.
            -- now rewrite K2.
          * apply Z.ltb_ge in K. injection CP as <-. cbn [lr_st].
            split; [exact C1|]. split; [reflexivity|]. split; [|exact U1].
            assert (LO' : line_of (S pos) = line_of pos).
            { rewrite LO. unfold line_of. f_equal. lia. }
            unfold linv. cbn [lr_i lr_j lr_line lr_st]. rewrite LO'. split; [lia|]. split; [lia|]. split; [exact I3|]. split; [congruence|exact I5].
    Qed.

    Definition list_post wk F Fs lv (s' : pstate) (l l' : lrun) (ls : lstate) : Prop :=
      exists pos', ls = (vals, pos') /\ core wk F Fs lv s' (lr_st l') /\ linv pos' l' /\ k_up (lr_st l') = k_up (lr_st l).
    Lemma list_turns v (pb : LM) stop cb b wk F Fs lv : (forall ls, keeps (outside still) (pb ls)) ->
      (forall p r, cb p = Val r -> grows (lr_st p) (lr_st r)) ->
      (forall s l pos ls s' l', core wk F Fs (v :: lv) s (lr_st l) -> linv pos l -> pb (vals, pos) s = (Ok ls, s') -> cb l = Val l' -> Forall regular_note (k_notes (lr_st l')) ->
        list_post wk F Fs (v :: lv) s' l l' ls) ->
      forall is_ L s l pos ls s' l', Forall (fun i => 0 <= i) is_ -> ldel v (ps_loops s) = L -> core wk F Fs lv (set_loops L s) (lr_st l) -> linv pos l ->
        iterate_l v is_ pb (vals, pos) s = (Ok ls, s') -> turns v stop lr_loops (fun l => k_loops (lr_st l)) cb b is_ l = Val l' -> Forall regular_note (k_notes (lr_st l')) ->
        list_post wk F Fs lv (set_loops L s') l l' ls /\ ldel v (ps_loops s') = L.
    Proof.
      intros KP GR BODY. induction is_ as [|i r IH]; intros L s l pos ls s' l' PI LD C LI IT TU NT; cbn [iterate_l turns] in IT, TU.
      - injection IT as <- <-. cbs TU as b' EB. destruct (b' =? b); [|discriminate]. injection TU as <-. split; [|exact LD]. exists pos. auto.
      - apply mbind_ok in IT as ([] & s1 & H1 & IT). injection H1 as <-. apply mbind_ok in IT as (ls2 & s2 & H2 & IT).
        cbs TU as b' EB. destruct (b' =? b); [|discriminate]. cbs TU as l2 E2. inversion PI as [|? ? P0 PR]; subst.
        pose proof (core_in wk F Fs lv v i _ _ P0 C) as C1. rewrite (cr_loops _ _ _ _ _ _ C) in E2, C1. cbn [set_loops ps_loops] in E2, C1.
        assert (N2 : Forall regular_note (k_notes (lr_st l2))).
        { eapply grows_regular; [|exact NT]. apply (turns_grows lr_st) in TU; [|reflexivity|exact GR]. eapply grows_trans; [|exact TU]. now apply grows_same. }
        destruct (BODY _ (lr_loops ((v, i) :: ldel v (ps_loops s)) l) pos _ _ _ C1 LI H2 E2 N2) as (pos2 & -> & C2 & LI2 & U2).
        destruct (KP _ _ _ _ H2) as (LL2 & _). cbn [set_loops ps_loops] in LL2.
        pose proof (core_out _ _ _ _ _ _ _ _ _ C2 LL2) as C3.
        assert (LD2 : ldel v (ps_loops s2) = ldel v (ps_loops s)) by (rewrite LL2; apply ldel_head).
        assert (LI3 : linv pos2 (lr_loops (List.tl (k_loops (lr_st l2))) l2)) by exact LI2.
        destruct (IH _ _ (lr_loops (List.tl (k_loops (lr_st l2))) l2) _ _ _ _ PR LD2 C3 LI3 IT TU NT) as ((pos3 & -> & C4 & LI4 & U4) & LD4).
        split; [|exact LD4]. exists pos3. split; [reflexivity|]. split; [exact C4|]. split; [exact LI4|]. rewrite U4. exact U2.
    Qed.

    Lemma clist_loop_eq up lv cur v a b body0 l : clist_item o c npl up lv cur (LLoop v a b body0) l =
      for_loop v a (fun l => ceval up lv cur (lr_st l) b) lr_loops (fun l => k_loops (lr_st l)) (clist_body o c npl up (v :: lv) cur body0) l.
    Proof. reflexivity. Qed.
    Lemma clist_cons_eq up lv cur i r l : clist_body o c npl up lv cur (LCons i r) l =
      let* l' := clist_item o c npl up lv cur i l in
      match reg_litem up lv cur i with Some cur' => clist_body o c npl up lv cur' r l' | None => Undefined end.
    Proof. reflexivity. Qed.
    Lemma list_both wk F Fs N U outer : ctx F Fs N U outer ->
      (forall i up lv cur cur' pos s l ls s' l', Forall2 sub up Fs -> reg_litem up lv cur i = Some cur' -> sub cur' F -> incl (litem_names i) N -> incl (litem_used i) U ->
         core wk F Fs lv s (lr_st l) -> linv pos l -> list_item en i (vals, pos) s = (Ok ls, s') -> clist_item o c npl up lv cur i l = Val l' ->
         Forall regular_note (k_notes (lr_st l')) -> list_post wk F Fs lv s' l l' ls) /\
      (forall b up lv cur cur' pos s l ls s' l', Forall2 sub up Fs -> reg_lbody up lv cur b = Some cur' -> sub cur' F -> incl (lbody_names b) N -> incl (lbody_used b) U ->
         core wk F Fs lv s (lr_st l) -> linv pos l -> list_body en b (vals, pos) s = (Ok ls, s') -> clist_body o c npl up lv cur b l = Val l' ->
         Forall regular_note (k_notes (lr_st l')) -> list_post wk F Fs lv s' l l' ls).
    Proof.
      intros X. apply lrecipe_mut; cbn [reg_litem reg_lbody litem_names lbody_names litem_used lbody_used]; try discriminate.
      - intros e up lv cur cur' pos s l ls s' l' SU RG SF IN IU C LI PY CP NT.
        destruct (list_expr_both wk F Fs lv N U outer up cur cur' e pos s l ls s' l') as (A & -> & B & UU); auto. exists (S pos). auto.
      - intros v a b body0 IH up lv cur cur' pos s l ls s' l' SU RG SF IN IU C LI PY CP NT.
        destruct (loop_ok up lv cur v a b) eqn:LK; [|discriminate]. rewrite clist_loop_eq in CP.
        assert (SC : sub cur F) by (eapply sub_trans; [apply (proj2 reg_list_adds _ _ _ _ _ RG)|exact SF]).
        unfold loop_ok in LK. apply andb_true_iff in LK as [LK IE]. apply andb_true_iff in LK as [LK ST]. apply andb_true_iff in LK as [KV _].
        destruct a as [|?|dz n| | | | | |]; try discriminate ST. destruct n as [a0| |]; try discriminate ST. apply Z.leb_le in ST.
        assert (IUB : incl (expr_names b) U) by (intros z Z; apply IU; apply in_or_app; right; apply in_or_app; now left).
        unfold for_loop in CP. cbs CP as b0 EB. cbs CP as u EU. rewrite list_loop_eq in PY.
        unfold cycle_list_loop in PY. apply mbind_ok in PY as (va & s1 & H1 & PY). apply mbind_ok in PY as (vb & s2 & H2 & PY).
        assert (va = vint a0 /\ s1 = s) as [-> ->].
        { unfold eval_ctl, eval_known in H1. rewrite eval_expr_eq in H1. cbn [bind] in H1. injection H1 as <- <-. auto. }
        destruct (stop_value wk F Fs lv N U outer up cur s (lr_st l) b b0 vb s2 C X (Forall2_cons _ _ SC SU) IUB IE EB H2) as [-> ->].
        apply mbind_ok in PY as (za & s3 & H3 & PY). injection H3 as <- <-. apply mbind_ok in PY as (zb & s4 & H4 & PY). injection H4 as <- <-.
        destruct (lget v (ps_loops s)) eqn:LG; [discriminate|]. apply mbind_ok in PY as (ls5 & s5 & IT & PY). apply mbind_ok in PY as ([] & s6 & H6 & PY).
        injection PY as <- <-.
        assert (LS : set_loops (ps_loops s) s = s) by now destruct s.
        assert (RGE : Forall (fun i => 0 <= i) (zrange a0 b0)).
        { apply Forall_forall. intros i I. apply zrange_in in I. lia. }
        assert (C' : core wk F Fs lv (set_loops (ps_loops s) s) (lr_st l)) by now rewrite LS.
        assert (BODY : forall s l pos ls s' l', core wk F Fs (v :: lv) s (lr_st l) -> linv pos l -> list_body en body0 (vals, pos) s = (Ok ls, s') ->
          clist_body o c npl up (v :: lv) cur body0 l = Val l' -> Forall regular_note (k_notes (lr_st l')) -> list_post wk F Fs (v :: lv) s' l l' ls).
        { intros s0 l0 pos0 ls0 s0' l0' A1 A2 A3 A4 A5. eapply IH; eauto. intros z Z. apply IU. apply in_or_app; right. apply in_or_app; now right. }
        destruct (list_turns v (list_body en body0) _ (clist_body o c npl up (v :: lv) cur body0) b0 wk F Fs lv (fun ls => still_list body0 ls)
          (fun p r => proj2 (clist_grows o c npl) body0 up (v :: lv) cur p r) BODY _ _ _ _ _ _ _ _ RGE (ldel_none _ _ LG) C' LI IT CP NT) as ((pos' & -> & C5 & L5 & U5) & Q3).
        exists pos'. split; [reflexivity|]. split; [|auto]. destruct (a0 <=? b0) eqn:LE.
        + injection H6 as <-. rewrite Q3. exact C5.
        + injection H6 as <-. apply Z.leb_gt in LE. rewrite zrange_empty in IT by lia. injection IT as _ <-. rewrite LS in C5. exact C5.
      - intros up lv cur cur' pos s l ls s' l' SU RG SF IN IU C LI PY CP NT. injection PY as <- <-. injection CP as <-. exists pos. auto.
      - intros i IHi b IHb up lv cur cur' pos s l ls s' l' SU RG SF IN IU C LI PY CP NT. rewrite list_cons_eq in PY. rewrite clist_cons_eq in CP.
        destruct (reg_litem up lv cur i) as [c1|] eqn:R1; [|discriminate]. apply mbind_ok in PY as (ls1 & s1 & P1 & PY). cbs CP as l1 E1.
        assert (N1 : Forall regular_note (k_notes (lr_st l1))).
        { eapply grows_regular; [|exact NT]. eapply (proj2 (clist_grows o c npl)); eauto. }
        assert (S1 : sub c1 F) by (eapply sub_trans; [apply (proj2 reg_list_adds _ _ _ _ _ RG)|exact SF]).
        destruct (IHi up lv cur c1 pos s l ls1 s1 l1) as (pos1 & -> & C1 & L1 & U1); auto.
        { intros x Q. apply IN. apply in_or_app. now left. }
        { intros x Q. apply IU. apply in_or_app. now left. }
        destruct (IHb up lv c1 cur' pos1 s1 l1 ls s' l') as (pos2 & -> & C2 & L2 & U2); auto.
        { intros x Q. apply IN. apply in_or_app. now right. }
        { intros x Q. apply IU. apply in_or_app. now right. }
        exists pos2. split; [reflexivity|]. split; [exact C2|]. split; [exact L2|]. congruence.
    Qed.

    Lemma line_of_end : S (line_of (Z.to_nat npl)) = ((Z.to_nat npl + 5) / 6)%nat.
    Proof.
      unfold line_of. rewrite Nat.min_r by lia. replace (Z.to_nat npl + 5)%nat with (1 * 6 + (Z.to_nat npl - 1))%nat by lia.
      rewrite Nat.div_add_l by lia. reflexivity.
    Qed.
    Lemma run_list_both wk F Fs lv N U outer up cur cur' b s st ls s' st' : core wk F Fs lv s st -> ctx F Fs N U outer -> Forall2 sub up Fs ->
      reg_lbody up lv cur b = Some cur' -> sub cur' F -> incl (lbody_names b) N -> incl (lbody_used b) U -> k_lines st = skipn i1 CL ->
      list_body en b (vals, O) s = (Ok ls, s') -> run_list o c npl up lv cur b st = Val st' -> Forall regular_note (k_notes st') ->
      core wk F Fs lv s' st' /\ k_lines st' = skipn (i1 + (Z.to_nat npl + 5) / 6) CL /\ k_up st' = k_up st.
    Proof.
      intros C X SU RG SF IN IU KL PY CP NT. unfold run_list in CP. cbs CP as [line st1] NX. cbs CP as l E1. destruct (lr_i l =? npl) eqn:EI; [|discriminate].
      injection CP as <-. apply Z.eqb_eq in EI.
      pose proof (next_line_numeric _ _ _ NX (grows_regular _ _ (proj2 (clist_grows o c npl) _ _ _ _ _ _ E1) NT)) as NU.
      apply next_line_grows in NX as (_ & K1 & K2). rewrite KL in K1. symmetry in K1. destruct (skipn_inv _ _ _ _ (eq_sym K1)) as [NE SE].
      destruct (proj2 (list_both wk F Fs N U outer X) b up lv cur cur' O s {| lr_i := 0; lr_j := 0; lr_line := line; lr_st := st1 |} ls s' l) as (pos & -> & C1 & (I1 & _ & _ & I4 & _) & U1); auto.
      - cbn [lr_st]. rewrite K2. destruct C as [A1 A2 A3 A4 A5]. split; assumption.
      - assert (L0 : line_of 0 = 0%nat) by reflexivity. unfold linv. cbn [lr_i lr_j lr_line lr_st]. rewrite L0. replace (i1 + 0)%nat with i1 by lia. split; [reflexivity|]. split; [reflexivity|]. split; [|split; [|exact NU]].
        + symmetry. now apply nth_error_nth.
        + now rewrite SE.
      - split; [exact C1|]. assert (pos = Z.to_nat npl) as -> by lia. split; [|rewrite U1; cbn [lr_st]; now rewrite K2].
        rewrite I4. f_equal. rewrite <- line_of_end. lia.
    Qed.
  End Lists.

  (** ** Records *)

  Definition step_ok (pi : M unit) (ci : cstate -> cpp cstate) wk F Fs lv : Prop :=
    forall s st s' st', pre wk F Fs lv s st -> pi s = (Ok tt, s') -> ci st = Val st' -> fine s' st' ->
      pre wk F Fs lv s' st' /\ k_up st' = k_up st.

  Lemma spec_same cs c' s s' : check_spec_read cs c' s = (Ok tt, s') -> s' = s.
  Proof. unfold check_spec_read, lift. intros H. destruct (check_spec _ _ _ _); [|discriminate]. now injection H. Qed.
  Lemma core_advance wk F Fs lv s st p q ls : core wk F Fs lv s st -> core wk F Fs lv (advance p q s) (with_lines ls st).
  Proof. intros [A1 A2 A3 A4 A5]. split; assumption. Qed.
  Lemma core_notes wk F Fs lv s st l : core wk F Fs lv s st -> core wk F Fs lv s (with_notes l st).
  Proof. intros [A1 A2 A3 A4 A5]. split; assumption. Qed.
  Lemma core_lines wk F Fs lv s st l : core wk F Fs lv s st -> core wk F Fs lv s (with_lines l st).
  Proof. intros [A1 A2 A3 A4 A5]. split; assumption. Qed.

  (** the first line and its fields *)
  Lemma head_both {A} (rd : list str -> nat -> result (contrec * ctrl * A * nat)) cs (sel : contrec -> list num) (fs : cfields) wk F Fs lv N U outer up cur cur' s st r cc tb s1 s2 s3 line st1 st2 :
    (forall p r cc tb q, rd PL p = Ok (r, cc, tb, q) -> (p < q)%nat /\ exists c', read_cont ro PL p = Ok (r, c', S p)) ->
    (forall ln r, number_line ln -> reads_as ro TFloat (cfield ln 0) (C1 r) -> reads_as ro TFloat (cfield ln 1) (C2 r) -> reads_as ro TInt (cfield ln 2) (L1 r) ->
      reads_as ro TInt (cfield ln 3) (L2 r) -> reads_as ro TInt (cfield ln 4) (N1 r) -> reads_as ro TInt (cfield ln 5) (N2 r) -> line_vals ln (sel r) fs) ->
    pre wk F Fs lv s st -> ctx F Fs N U outer -> Forall2 sub up Fs -> reg_fields up lv cur fs = Some cur' -> sub cur' F -> incl (cf_names fs) N ->
    read_with rd s = (Ok (r, cc, tb), s1) -> check_spec_read cs cc s1 = (Ok tt, s2) ->
    map_read en (combine (map vn (sel r)) (map snd fs)) s2 = (Ok tt, s3) -> (ps_ofs s3 <= length body)%nat ->
    next_line o c st = Val (line, st1) -> run_fields o up lv cur line fs st1 = Val st2 -> Forall regular_note (k_notes st2) ->
    exists p q, p = ps_ofs s /\ rd PL p = Ok (r, cc, tb, q) /\ (q <= length body)%nat /\ nth_error CL p = Some line /\ number_line line /\
      reads_as ro TInt (cfield line 4) (N1 r) /\ reads_as ro TInt (cfield line 5) (N2 r) /\
      core wk F Fs lv s3 st2 /\ ps_lines s3 = PL /\ ps_ofs s3 = q /\ k_lines st2 = skipn (S p) CL /\ k_up st2 = k_up st.
  Proof.
    intros ADV VALS (C & PLs & KL) X SU RG SF IN RW SP MR OF NX RF NT.
    assert (RWs : exists p, skip_blank_lines (ps_lines s) (ps_ofs s) = Ok p /\ s1 = advance p (ps_ofs s1) s /\ rd (ps_lines s) p = Ok (r, cc, tb, ps_ofs s1)).
    { unfold read_with in RW. destruct (skip_blank_lines _ _) as [p|]; [|discriminate]. destruct (rd (ps_lines s) p) as [[x q]|] eqn:RD; [|discriminate].
      injection RW as -> <-. exists p. cbn [advance ps_ofs]. auto. }
    apply spec_same in SP. subst s2. pose proof (still_fields _ _ _ _ MR) as (_ & _ & _ & _ & SL & SO).
    destruct RWs as (p & SK & E1 & RD). rewrite PLs in SK, RD. rewrite SO in OF. destruct (ADV _ _ _ _ _ RD) as [PQ (c' & RC)].
    assert (p = ps_ofs s) as ->.
    { pose proof SK as SK'. apply skip_ok in SK' as (L1 & _). apply (skip_line body ends send NL _ _ SK). lia. }
    pose proof (next_line_numeric _ _ _ NX (grows_regular _ _ (run_fields_grows _ _ _ _ _ _ _ _ RF) NT)) as NU.
    apply next_line_grows in NX as (_ & K1 & K2). rewrite KL in K1. symmetry in K1. destruct (skipn_inv _ _ _ _ (eq_sym K1)) as [NE SE].
    destruct (cont_read body ends send o ro SR NL _ _ _ _ RC ltac:(lia)) as (l & NE' & NB0 & _ & _ & R0 & R1 & R2 & R3 & R4 & R5).
    assert (l = line) by congruence. subst l. pose proof (conj NB0 NU : number_line line) as NB.
    destruct (core_fields wk F Fs lv N U outer up cur cur' fs (sel r) line s1 st1 s3 st2) as (C3 & (d & ED) & U3 & LL3); auto.
    { rewrite E1, K2. now apply core_notes, core_advance. }
    exists (ps_ofs s), (ps_ofs s1). split; [reflexivity|]. split; [exact RD|]. split; [exact OF|]. split; [exact NE|]. split; [exact NB|].
    split; [exact R4|]. split; [exact R5|]. split; [exact C3|]. split; [rewrite SL, E1; exact PLs|]. split; [exact SO|].
    split; [rewrite LL3; now rewrite SE|]. rewrite U3, K2. reflexivity.
  Qed.

  Lemma cont_both wk F Fs lv N U outer up cur cur' cs f : ctx F Fs N U outer -> Forall2 sub up Fs -> reg_fields up lv cur (cont_fields f) = Some cur' -> sub cur' F ->
    incl (fields_names f) N -> step_ok (do_cont en false cs f) (run_cont o c up lv cur f) wk F Fs lv.
  Proof.
    intros X SU RG SF IN s st s' st' P PY CP FI. unfold do_cont in PY. cbn [read_env e_write e_ro] in PY.
    apply mbind_ok in PY as ([r cc] & s1 & RW & PY). apply mbind_ok in PY as ([] & s2 & SP & PY). apply mbind_ok in PY as ([] & s3 & MR & PY). injection PY as <-.
    unfold run_cont in CP. cbs CP as [line st1] NX.
    set (rd := fun ls p => do (a, q) <- read_cont ro ls p; Ok (a, tt, q)).
    assert (RW' : read_with rd s = (Ok (r, cc, tt), s1)).
    { unfold read_with in *. destruct (skip_blank_lines _ _) as [p|]; [|discriminate]. unfold rd. destruct (read_cont ro (ps_lines s) p) as [[x q]|]; [|discriminate].
      cbn [bind]. injection RW as -> <-. reflexivity. }
    destruct (head_both rd cs (fun r => [C1 r; C2 r; L1 r; L2 r; N1 r; N2 r]) (cont_fields f) wk F Fs lv N U outer up cur cur' s st r cc tt s1 s2 s3 line st1 st')
      as (p & q & -> & RD & Q & NE & NB & _ & _ & C3 & PL3 & O3 & KL3 & KU3); auto.
    - intros p r0 cc0 tb q H. unfold rd in H. destruct (read_cont ro PL p) as [[[x y] z]|] eqn:RC; [|discriminate]. cbn [bind] in H. injection H as <- <- _ <-.
      pose proof RC as RC'. apply read_cont_adv in RC' as [A ->]. split; [lia|eauto].
    - intros ln r0 A0 A1 A2 A3 A4 A5 A6. apply cont_line_vals; assumption.
    - apply FI.
    - apply FI.
    - split; [|exact KU3]. split; [exact C3|]. split; [exact PL3|].
      unfold rd in RD. destruct (read_cont ro PL (ps_ofs s)) as [[[x y] z]|] eqn:RC; [|discriminate]. cbn [bind] in RD. injection RD as _ _ <-.
      apply read_cont_adv in RC as [_ ->]. now rewrite KL3, O3.
  Qed.

  (** control numbers *)
  Lemma ctrl_line l cc mat mf mt : plain_line l -> read_ctrl ro (with_break l) = Ok cc ->
    cpp_read_mat_number l = Val mat -> cpp_read_mf_number l = Val mf -> cpp_read_mt_number l = Val mt ->
    cc = {| MAT := mat; MF := mf; MT := mt |}.
  Proof.
    intros (LEN & NF & _) R H1 H2 H3. unfold read_ctrl in R. destruct SR as (W & _). rewrite W in R. cbn [Nat.mul Nat.add] in R.
    unfold with_break in R. rewrite !slice_app_l in R by lia.
    assert (SUB : forall a b, (66 <= a)%nat -> (b <= 75)%nat -> number_field (slice a b l)).
    { intros a b A B x X. apply NF. unfold slice in X |- *. assert (b - a = 0 \/ a <= b)%nat as [Z|LE] by lia; [rewrite Z in X; destruct X|].
      replace a with (66 + (a - 66))%nat in X by lia. rewrite <- skipn_skipn' in X. revert X.
      generalize (skipn 66 l). intros m X. replace (b - (66 + (a - 66)))%nat with (b - a)%nat in X by lia. rewrite firstn_skipn_comm in X. apply in_skipn in X.
      replace (a - 66 + (b - a))%nat with (Nat.min (a - 66 + (b - a)) (75 - 66))%nat in X by lia. rewrite <- firstn_firstn in X. now apply in_firstn in X. }
    unfold cpp_read_mat_number, cpp_read_mf_number, cpp_read_mt_number, cpp_read_custom_int_field in *. cbn [Nat.add] in *.
    destruct (length l <? 70)%nat; [discriminate|]. destruct (length l <? 72)%nat; [discriminate|]. destruct (length l <? 75)%nat; [discriminate|].
    destruct (ctrl_int (slice 66 70 l)) as [a|] eqn:E1; [|discriminate]. cbn [bind] in R.
    destruct (ctrl_int (slice 70 72 l)) as [b|] eqn:E2; [|discriminate]. cbn [bind] in R.
    destruct (ctrl_int (slice 72 75 l)) as [d|] eqn:E3; [|discriminate]. cbn [bind] in R. injection R as <-.
    f_equal; symmetry.
    - eapply ctrl_both; [|exact E1|exact H1]. apply SUB; lia.
    - eapply ctrl_both; [|exact E2|exact H2]. apply SUB; lia.
    - eapply ctrl_both; [|exact E3|exact H3]. apply SUB; lia.
  Qed.

  (** texts *)
  Lemma frel_ctrl wk F d f cc : frel working wk F d f -> ctrl_cells f = Some cc ->
    frel working wk F (dset (KStr $"MT") (vint (MT cc)) (dset (KStr $"MF") (vint (MF cc)) (dset (KStr $"MAT") (vint (MAT cc)) d))) f.
  Proof.
    intros R K. assert (E : forall x z, ~ In x working -> vget x (cf_vars f) = Some (CScal (vint z)) -> dget (KStr x) d = Some (vint z)).
    { intros x z X V. pose proof (fr_entry _ _ _ _ _ R x X) as E. rewrite V in E. destruct E as (v & D & A). cbn [cell_rel] in A. apply alike_int in A. congruence. }
    assert (W : forall x, In x [$"MAT"; $"MF"; $"MT"] -> ~ In x working).
    { intros x X Y. unfold working in Y. cbn [In] in *. intuition (subst; discriminate). }
    assert (S : forall x z e, dget (KStr x) e = Some (vint z) -> forall k, dget k (dset (KStr x) (vint z) e) = dget k e).
    { intros x z e D k. destruct (key_eqb k (KStr x)) eqn:Q.
      - apply key_eqb_eq in Q. subst k. now rewrite dget_dset_same.
      - apply dget_dset_other. intros ->. now rewrite key_eqb_refl in Q. }
    unfold ctrl_cells in K.
    destruct (vget $"MAT" (cf_vars f)) as [[[[a| |]| | | | | | |]|]|] eqn:V1; try discriminate.
    destruct (vget $"MF" (cf_vars f)) as [[[[b| |]| | | | | | |]|]|] eqn:V2; try discriminate.
    destruct (vget $"MT" (cf_vars f)) as [[[[e| |]| | | | | | |]|]|] eqn:V3; try discriminate. injection K as <-. cbn [MAT MF MT].
    apply E in V1; [|apply W; cbn; tauto]. apply E in V2; [|apply W; cbn; tauto]. apply E in V3; [|apply W; cbn; tauto].
    eapply frel_ext; [exact R| |].
    - intros k. rewrite S; [rewrite S; [now rewrite S|]|].
      + now rewrite dget_dset_other by discriminate.
      + now rewrite !dget_dset_other by discriminate.
    - repeat apply dset_nodup. apply (fr_keys _ _ _ _ _ R).
  Qed.
  Lemma texts_both sp wk F lv line : plain_line line -> forall fs first ofs cur cur' s st s' st',
    (first = true -> ofs = O) -> (forall x, In x (text_names fs) -> ~ In x sp) ->
    reg_text lv cur first ofs fs = Some cur' -> sub cur' F ->
    frel sp wk F (ps_dic s) (k_cur st) -> k_loops st = ps_loops s -> loops_ok lv (ps_loops s) ->
    text_read fs (slice 0 66 (with_break line)) ofs s = (Ok tt, s') -> run_texts first ofs line fs st = Val st' -> Forall regular_note (k_notes st') ->
    (exists d, s' = set_dic d s) /\ frel sp wk F (ps_dic s') (k_cur st') /\ cur_only st st'.
  Proof.
    intros PLN. assert (LEN : (75 <= length line)%nat) by apply PLN.
    assert (FULL : slice 0 66 (with_break line) = firstn 66 line).
    { unfold with_break. rewrite slice_app_l by lia. reflexivity. }
    rewrite FULL. assert (LF : length (firstn 66 line) = 66%nat) by (rewrite firstn_length; lia).
    induction fs as [|[u n] fs IH]; intros first ofs cur cur' s st s' st' FO NW RG SF R KL LO PY CP NT.
    { cbn [text_read run_texts] in *. injection PY as <-. injection CP as <-. split; [|split; [exact R|apply cur_only_refl]].
      exists (ps_dic s). now destruct s. }
    cbn [text_read run_texts reg_text] in *.
    destruct (text_length first (u, n)) as [len|] eqn:TL; [|discriminate].
    assert (UP : match n with Some n0 => (ofs + n0)%nat | None => length (firstn 66 line) end = (ofs + len)%nat).
    { unfold text_length in TL. destruct n as [n|]; [destruct u; injection TL as <-; reflexivity|]. destruct u; [|discriminate]. destruct first; [|discriminate].
      injection TL as <-. rewrite (FO eq_refl), LF. reflexivity. }
    rewrite UP in PY. destruct (66 <? ofs + len)%nat eqn:B; [discriminate|]. apply Nat.ltb_ge in B.
    destruct (ofs + len <=? ofs)%nat; [discriminate|]. apply mbind_ok in PY as ([] & s1 & P1 & P2). cbs CP as st1 C1.
    assert (N1 : Forall regular_note (k_notes st1)) by (eapply grows_regular; [eapply run_texts_grows; exact CP|exact NT]).
    destruct u as [[x ix]|].
    - destruct (known x lv) eqn:KN; [discriminate|]. destruct (indices_ok lv ix) as [arr|] eqn:IX; [|discriminate]. destruct (kget x cur) eqn:KC; [discriminate|].
      cbs C1 as seen DR. cbs C1 as t SB. cbs C1 as f AS. injection C1 as <-.
      assert (seen = false) as ->.
      { destruct seen; [|reflexivity]. exfalso. cbn [with_notes k_notes with_cur] in N1. apply Forall_app in N1 as [_ N1]. inversion N1; subst. assumption. }
      assert (t = slice ofs (ofs + len) (firstn 66 line)) as ->.
      { unfold cpp_substr in SB. destruct (length line <? ofs)%nat; [discriminate|]. injection SB as <-. unfold slice.
        rewrite skipn_firstn_comm, firstn_firstn. f_equal. lia. }
      pose proof (reg_text_adds _ _ _ _ _ _ RG) as [RS _].
      assert (KF : kget x F = Some (var_kind arr TStr)) by (apply SF, RS; now apply kadd_get).
      rewrite KL in DR, AS.
      destruct (assign_both sp wk F (ps_dic s) (k_cur st) lv (ps_loops s) x ix arr TStr _ _ f s R LO (NW x (or_introl eq_refl)) IX KF DR AS
        (alike_str (slice ofs (ofs + len) (firstn 66 line))) eq_refl eq_refl) as (d & SV & R').
      rewrite SV in P1. injection P1 as <-.
      destruct (IH false (ofs + len)%nat (kadd x (var_kind arr TStr) cur) cur' (set_dic d s) (with_notes [] (with_cur f st)) s' st') as ((d2 & ->) & R2 & C2); auto.
      { discriminate. }
      { intros z Z. apply NW. unfold text_names. cbn [flat_map fst]. now right. }
      split; [now exists d2|]. split; [exact R2|]. exact C2.
    - injection P1 as <-. injection C1 as <-.
      destruct (IH false (ofs + len)%nat cur cur' s st s' st') as (D2 & R2 & C2); auto. discriminate.
  Qed.
  Lemma text_both wk F Fs lv N U outer cur cur' cs fs : ctx F Fs N U outer -> reg_text lv cur true 0 fs = Some cur' -> sub cur' F ->
    incl (text_names fs) N -> step_ok (do_text en cs fs) (run_text o c fs) wk F Fs lv.
  Proof.
    intros X RG SF IN s st s' st' (C & PLs & KL) PY CP [OF NT]. unfold do_text in PY. cbn [read_env e_write e_ro] in PY.
    apply mbind_ok in PY as ([t cc] & s1 & RW & PY). apply mbind_ok in PY as ([] & s2 & SP & PY). apply mbind_ok in PY as ([] & s3 & TR & PY).
    unfold run_text in CP. cbs CP as [line r] RL. cbs CP as st1 RT. injection CP as <-. apply read_line_taken in RL.
    apply spec_same in SP. subst s2. unfold update_ctrl, modify in PY. injection PY as <-.
    unfold read_with in RW. rewrite PLs in RW. destruct (skip_blank_lines PL (ps_ofs s)) as [p|] eqn:SK; [|discriminate].
    destruct (read_text ro PL p) as [[[t' cc'] q]|] eqn:RD; [|discriminate]. injection RW as -> -> <-.
    pose proof (k_text_read (outside still) still_outside still_dic _ _ _ _ _ _ TR) as (_ & _ & _ & _ & SL & SO).
    cbn [advance ps_ofs ps_lines] in SL, SO. cbn [set_dic ps_ofs] in OF. rewrite SO in OF.
    unfold read_text in RD. destruct (get_line PL p) as [pl|] eqn:GL; [|discriminate]. cbn [bind] in RD.
    destruct (read_ctrl ro pl) as [c'|] eqn:RC; [|discriminate]. cbn [bind] in RD. injection RD as <- -> <-.
    assert (p = ps_ofs s) as ->.
    { pose proof SK as SK'. apply skip_ok in SK' as (L1 & _). apply (skip_line body ends send NL _ _ SK). lia. }
    destruct (line_at body ends send NL (ps_ofs s) ltac:(lia)) as (l & E1 & E2 & PN).
    unfold get_line in GL. rewrite E2 in GL. injection GL as <-.
    rewrite KL in RL. destruct (skipn_inv _ _ _ _ RL) as [NE SE]. assert (l = line) by congruence. subst l.
    cbn [with_notes k_notes k_cur] in NT. apply Forall_app in NT as [NT1 NT2]. inversion NT2 as [|? ? T3 _]; subst. cbn [regular_note] in T3.
    destruct T3 as (d & CC & M1 & M2 & M3). pose proof (ctrl_line line cc _ _ _ PN RC M1 M2 M3) as ->.
    assert (W66 : (r_width ro * 6 = 66)%nat) by (destruct SR as (-> & _); reflexivity). rewrite W66 in TR.
    destruct (texts_both working wk F lv line PN fs true 0%nat cur cur' (advance (ps_ofs s) (S (ps_ofs s)) s) (with_lines (skipn (S (ps_ofs s)) CL) st) s3 st1)
      as ((d3 & ->) & R3 & (K1 & K2 & K3)); auto; try apply C.
    { intros x I. apply (cx_work _ _ _ _ _ X). now apply IN. }
    cbn [with_lines k_lines k_up k_loops] in K1, K2, K3.
    split; [|exact K2]. split; [|split; [exact PLs|exact K1]].
    split; cbn [set_dic advance ps_dic ps_up ps_loops ps_look with_notes k_cur k_up k_loops] in *; try apply C.
    - apply (frel_ctrl wk F _ _ _ R3 CC).
    - rewrite K2. apply C.
    - rewrite K3. apply C.
  Qed.
  Lemma dir_both wk F Fs lv N U outer up cur cur' cs l1 l2 n1 n2 : ctx F Fs N U outer -> Forall2 sub up Fs -> reg_fields up lv cur (dir_fields l1 l2 n1 n2) = Some cur' -> sub cur' F ->
    incl (flat_map field_name [l1; l2; n1; n2]) N -> step_ok (do_dir en cs [l1; l2; n1; n2]) (run_dir o c up lv cur l1 l2 n1 n2) wk F Fs lv.
  Proof.
    intros X SU RG SF IN s st s' st' (C & PLs & KL) PY CP FI. unfold do_dir in PY. cbn [read_env e_write e_ro] in PY.
    apply mbind_ok in PY as ([r cc] & s1 & RW & PY). apply mbind_ok in PY as ([] & s2 & SP & MR). apply spec_same in SP. subst s2.
    unfold run_dir in CP. cbs CP as [line st1] NX.
    assert (OF : (ps_ofs s1 <= length body)%nat).
    { destruct (still_fields _ _ _ _ MR) as (_ & _ & _ & _ & _ & SO). rewrite <- SO. apply FI. }
    pose proof (next_line_numeric _ _ _ NX (grows_regular _ _ (run_fields_grows _ _ _ _ _ _ _ _ CP) (proj2 FI))) as NU.
    destruct (take_line (read_dir ro) s st (r, cc) s1 line st1 PLs KL RW) as (p & q & -> & RD & -> & PB & QB & NE & ->); auto.
    { intros ls p [x y] q H. unfold read_dir in H.
      repeat match type of H with bind ?m _ = Ok _ => destruct m; cbn [bind] in H; [|discriminate H] end. injection H as _ _ <-. lia. }
    destruct (line_at body ends send NL _ PB) as (l & E1 & E2 & PN). assert (l = line) by congruence. subst l.
    unfold read_dir, get_line in RD. rewrite E2 in RD. cbn [bind] in RD. rewrite !(field_break o ro SR) in RD by (auto; lia).
    destruct (read_fort_int (cfield line 2)) as [z2|] eqn:R2; [|discriminate]. cbn [bind] in RD.
    destruct (read_fort_int (cfield line 3)) as [z3|] eqn:R3; [|discriminate]. cbn [bind] in RD.
    destruct (read_fort_int (cfield line 4)) as [z4|] eqn:R4; [|discriminate]. cbn [bind] in RD.
    destruct (read_fort_int (cfield line 5)) as [z5|] eqn:R5; [|discriminate]. cbn [bind] in RD.
    destruct (read_ctrl ro (with_break line)) as [c'|]; [|discriminate]. cbn [bind] in RD. injection RD as <- _ <-.
    cbn [D_L1 D_L2 D_N1 D_N2] in MR.
    destruct (core_fields wk F Fs lv N U outer up cur cur' (dir_fields l1 l2 n1 n2) [NInt z2; NInt z3; NInt z4; NInt z5] line (advance (ps_ofs s) (S (ps_ofs s)) s)
      (with_notes [Numbers [line]] (with_lines (skipn (S (ps_ofs s)) CL) st)) s' st') as (C3 & (d & ->) & U3 & L3); auto.
    - now apply core_notes, core_advance.
    - unfold line_vals, dir_fields. assert (FA : forall j z (e : expr), (j < 6)%nat -> read_fort_int (cfield line j) = Ok z ->
        forall w, read_field o (snd (fst (j, TInt, e))) line (fst (fst (j, TInt, e))) = Val w -> num_alike (NInt z) w).
      { intros j z e J R w W. cbn [fst snd] in W. eapply (field_alike o ro TInt); eauto; [split; assumption|]. exists z. auto. }
      repeat (apply Forall2_cons; [apply FA; [lia|assumption]|]). apply Forall2_nil.
    - apply FI.
    - split; [|exact U3]. split; [exact C3|]. split; [exact PLs|]. exact L3.
  Qed.

  Lemma tab1_cont p r cc tb q : read_tab1 ro PL p = Ok (r, cc, tb, q) -> (p < q)%nat /\ (exists c', read_cont ro PL p = Ok (r, c', S p)) /\
    exists iv m fv, read_endf_numbers ro true PL (2 * num_as_Z (N1 r)) (S p) = Ok (iv, m) /\ read_endf_numbers ro false PL (2 * num_as_Z (N2 r)) m = Ok (fv, q) /\
      tb = (evens iv, odds iv, evens fv, odds fv).
  Proof.
    intros H. pose proof H as A. apply read_tab1_adv in A. unfold read_tab1, read_tab1_body_lines in H.
    destruct (get_line PL p); [|discriminate]. cbn [bind] in H. destruct (read_cont ro PL p) as [[[r0 c0] q0]|] eqn:RC; [|discriminate]. cbn [bind] in H.
    pose proof RC as RC'. apply read_cont_adv in RC' as [_ ->].
    destruct (read_endf_numbers ro true PL _ (S p)) as [[iv m]|] eqn:RI; [|discriminate]. cbn [bind] in H.
    destruct (read_endf_numbers ro false PL _ m) as [[fv q']|] eqn:RF; [|discriminate]. cbn [bind] in H.
    destruct (read_ctrl ro _); [|discriminate]. cbn [bind] in H. injection H as <- _ <- <-. split; [lia|]. split; [eauto|]. exists iv, m, fv. auto.
  Qed.
  Lemma tab2_cont p r cc tb q : read_tab2 ro PL p = Ok (r, cc, tb, q) -> (p < q)%nat /\ (exists c', read_cont ro PL p = Ok (r, c', S p)) /\
    exists iv, read_endf_numbers ro true PL (2 * num_as_Z (N1 r)) (S p) = Ok (iv, q) /\ tb = (evens iv, odds iv).
  Proof.
    intros H. pose proof H as A. apply read_tab2_adv in A. unfold read_tab2 in H.
    destruct (get_line PL p); [|discriminate]. cbn [bind] in H. destruct (read_cont ro PL p) as [[[r0 c0] q0]|] eqn:RC; [|discriminate]. cbn [bind] in H.
    pose proof RC as RC'. apply read_cont_adv in RC' as [_ ->].
    destruct (read_endf_numbers ro true PL _ (S p)) as [[iv m]|] eqn:RI; [|discriminate]. cbn [bind] in H.
    destruct (read_ctrl ro _); [|discriminate]. cbn [bind] in H. injection H as <- _ <- <-. split; [lia|]. split; [eauto|]. exists iv. auto.
  Qed.
  Lemma list_cont p r cc vals q : read_list ro PL p = Ok (r, cc, vals, q) -> (p < q)%nat /\ (exists c', read_cont ro PL p = Ok (r, c', S p)) /\
    (0 < num_as_Z (N1 r) -> read_endf_numbers ro false PL (num_as_Z (N1 r)) (S p) = Ok (vals, q)).
  Proof.
    intros H. pose proof H as A. apply read_list_adv in A. unfold read_list in H.
    destruct (read_cont ro PL p) as [[[r0 c0] q0]|] eqn:RC; [|discriminate]. cbn [bind] in H.
    pose proof RC as RC'. apply read_cont_adv in RC' as [_ ->]. split; [lia|]. destruct (num_as_Z (N1 r0) =? 0) eqn:Z0.
    - injection H as <- _ <- <-. split; [eauto|]. apply Z.eqb_eq in Z0. lia.
    - destruct (read_endf_numbers ro false PL _ (S p)) as [[iv m]|] eqn:RI; [|discriminate]. cbn [bind] in H. injection H as <- _ <- <-. split; eauto.
  Qed.
  Lemma empty_notes n : Forall regular_note (note_empty n) -> 0 < n.
  Proof. unfold note_empty. destruct (n <=? 0) eqn:E; [|apply Z.leb_gt in E; auto]. intros H. inversion H; subst. contradiction. Qed.

  Lemma tab1_both wk F Fs lv N U outer up cur cur' cs f x y name : ctx F Fs N U outer -> Forall2 sub up Fs -> reg_instr up lv cur (ITab1 cs f x y name) = Some cur' -> sub cur' F ->
    incl (own_names (ITab1 cs f x y name)) N -> named_apart outer name (tab1_names x y) [] ->
    step_ok (do_tab1 en cs f x y name) (run_tab1 o c up lv cur f x y name) wk F Fs lv.
  Proof.
    intros X SU RG SF IN AP s st s' st' P PY CP FI. cbn [reg_instr own_names] in RG, IN.
    destruct (reg_fields up lv cur (head_fields f)) as [c1|] eqn:R1; [|discriminate]. destruct (tab_columns x y) as [cols|] eqn:TC; [|discriminate].
    apply tab_columns_inv in TC as (X0 & Y0 & -> & ND).
    unfold do_tab1 in PY. cbn [read_env e_write e_ro] in PY.
    apply mbind_ok in PY as ([[r cc] tb] & s1 & RW & PY). apply mbind_ok in PY as ([] & s2 & SP & PY). apply mbind_ok in PY as ([] & s3 & MR & PY).
    unfold run_tab1, fields_reg in CP. rewrite R1 in CP. cbs CP as [line st1] NX. cbs CP as st2 RF.
    destruct (vars_in up c1 name) as [upn curn] eqn:VI.
    set (cb := fun s3 : cstate => _) in CP.
    assert (GR : forall p r, cb p = Val r -> grows p r).
    { intros p0 r0 H. unfold cb in H. cb H. cb H. cb H. destruct a1 as [[t u] rr].
      eapply grows_trans; [|eapply run_columns_grows; exact H]. apply (grows_notes (with_lines rr p0)). }
    assert (RC1 : adds c1 cur' (named name (tab1_names x y))).
    { eapply reg_named_adds; [exact RG|]. intros c0 H. apply reg_columns_adds in H as (A & _). eapply adds_weak; [exact A|]. unfold tab1_names, tab2_names. intros z. cbn [In app]. tauto. }
    assert (L3 : ps_look s3 = None).
    { destruct P as (C & _). apply spec_same in SP. subst s2. destruct (still_fields _ _ _ _ MR) as (_ & _ & _ & LK & _). apply LK. unfold read_with in RW.
      destruct (skip_blank_lines _ _); [|discriminate]. destruct (read_tab1 _ _ _) as [[? ?]|]; [|discriminate]. injection RW as _ <-. apply C. }
    rewrite (proceed_run tt) in PY by exact L3. destruct tb as [[[n i] xs] ys].
    assert (OF : (ps_ofs s3 <= length body)%nat).
    { destruct (still_section name _ (still_fields _) _ _ _ PY) as (_ & _ & _ & _ & _ & SO). rewrite <- SO. apply FI. }
    assert (NT2 : Forall regular_note (k_notes st2)) by (eapply grows_regular; [eapply in_named_grows; [exact GR|exact CP]|apply FI]).
    assert (S1 : sub c1 F) by (eapply sub_trans; [apply RC1|exact SF]).
    destruct (head_both (read_tab1 ro) cs (fun r => [C1 r; C2 r; L1 r; L2 r]) (head_fields f) wk F Fs lv N U outer up cur c1 s st r cc (n, i, xs, ys) s1 s2 s3 line st1 st2)
      as (p & q & -> & RD & Q & NE & NB & RN1 & RN2 & C3 & PL3 & O3 & KL3 & KU3); auto.
    { intros p r0 cc0 tb q H. apply tab1_cont in H as (A & B & _). auto. }
    { intros ln r0 A0 A1 A2 A3 A4 A5 A6. apply cont_line_vals; assumption. }
    { intros z Z. apply IN. apply in_or_app. left. now apply cf_names_head. }
    apply tab1_cont in RD as (PQ & _ & iv & m & fv & RI & RV & TB). injection TB as -> -> -> ->.
    pose proof RN1 as (nr & EN1 & _). pose proof RN2 as (np & EN2 & _).
    match type of PY with in_section _ _ ?m _ = _ => set (pb := m) in PY end.
    assert (BODY : body_ok pb cb name (fun up' c => reg_columns up' lv c [fst x; fst y; $"INT"; $"NBT"]) (tab1_names x y) [] lv up c1 s3 st2).
    { intros wk' F' Fs' N' U' outer' up' v w s4 st4 a4 s5 st5 C5 X5 SU5 RG5 SF5 IN5 _ VI' PL5 O5 KL5 PY5 CP5 FI5.
      apply reg_columns_adds in RG5 as (AD & KC). unfold cb in CP5. clear VI'.
      cbs CP5 as nr' ER. cbs CP5 as np' EP. cbs CP5 as [[t u] rr] ET.
      assert (nr' = nr) as -> by (pose proof (int_field_same line 4 (N1 r) nr' NB ltac:(lia) RN1 ER); congruence).
      assert (np' = np) as -> by (pose proof (int_field_same line 5 (N2 r) np' NB ltac:(lia) RN2 EP); congruence).
      assert (NT : Forall regular_note (note_empty nr ++ note_empty np ++ [Ranges (2 * Z.to_nat nr) (k_lines st4); Numbers (taken rr (k_lines st4))])).
      { pose proof (proj2 FI5) as H. apply grows_regular with (1 := run_columns_grows _ _ _ _ _ CP5) in H. cbn [with_notes k_notes] in H. now apply Forall_app in H as [_ H]. }
      apply Forall_app in NT as [T1 NT]. apply Forall_app in NT as [T2 NT]. apply empty_notes in T1, T2. inversion NT as [|? ? T3 NT4]; subst. inversion NT4 as [|? ? T4 _]; subst. clear NT NT4. cbn [regular_note] in T3, T4.
      unfold cpp_read_tab1_body in ET. cbs ET as [is r1] EV1. cbs ET as t' ES1. cbs ET as [fs r2] EV2. cbs ET as u' ES2. injection ET as <- <- <-.
      rewrite KL5, KL3 in EV1, T3, T4.
      assert (NU : forall j, (j < (2 * Z.to_nat nr + 5) / 6 + (2 * Z.to_nat np + 5) / 6)%nat -> numeric (nth (S (ps_ofs s) + j) CL [])).
      { pose proof EV1 as V1. pose proof EV2 as V2. apply vec_points in V1 as (-> & L1 & _); [|lia]. apply vec_points in V2 as (-> & L2 & _); [|lia].
        rewrite skipn_length in L2. rewrite skipn_skipn' in T4. apply taken_numeric; [lia|exact T4]. } rewrite EN1 in RI. rewrite EN2 in RV. cbn [num_as_Z] in RI, RV.
      assert (MB : (m <= length body)%nat).
      { unfold read_endf_numbers in RV. destruct (read_numbers_loop _ _ _ _ m) as [[? ?]|] eqn:RL; [|discriminate]. cbn [bind] in RV. injection RV as _ RV. apply loop_offset in RL; lia. }
      assert (ME : m = (S (ps_ofs s) + (2 * Z.to_nat nr + 5) / 6)%nat).
      { unfold read_endf_numbers in RI. destruct (read_numbers_loop _ _ _ _ (S (ps_ofs s))) as [[vv jj]|] eqn:RL; [|discriminate]. cbn [bind] in RI.
        apply loop_offset in RL; [|lia]. replace (2 * Z.to_nat nr)%nat with (Z.to_nat (2 * nr)) by lia. rewrite <- RL.
        destruct (mapM to_int1 vv) as [?|er]; [|destruct er; try discriminate RI]; now injection RI. }
      destruct (ints_table nr (S (ps_ofs s)) iv m (co_validate o) _ t' r1 T1 (fun k K => NU _ (Nat.lt_le_trans _ _ _ (line_count _ _ K) (Nat.le_add_r _ _))) T3 RI MB eq_refl) as (I1 & I2 & ->).
      { rewrite EV1. cbn [cbind]. now rewrite ES1. }
      assert (NUF : forall k, (k < 2 * Z.to_nat np)%nat -> numeric (nth (m + k / 6) CL [])).
      { intros k K. rewrite ME, <- Nat.add_assoc. apply NU. pose proof (line_count _ _ K). lia. }
      destruct (floats_table np m fv (ps_ofs s3) (co_validate o) _ u' r2 T2 NUF RV Q eq_refl) as (F1 & F2 & ->).
      { rewrite EV2. cbn [cbind]. now rewrite ES2. }
      set (cl := [(fst x, (VList (map vn (evens fv)), floats (fst u'))); (fst y, (VList (map vn (odds fv)), floats (snd u')));
        ($"INT", (VList (map vn (odds iv)), ints (snd t'))); ($"NBT", (VList (map vn (evens iv)), ints (fst t')))]).
      set (pl := [($"NBT", VList (map vn (evens iv))); ($"INT", VList (map vn (odds iv))); (fst x, VList (map vn (evens fv))); (fst y, VList (map vn (odds fv)))]).
      assert (NDP : NoDup (map fst pl)).
      { cbn [pl map fst]. eapply Permutation.Permutation_NoDup; [|exact ND].
        apply (Permutation.Permutation_trans (Permutation.Permutation_app_comm [fst x; fst y] [$"INT"; $"NBT"])). cbn [app]. apply Permutation.perm_swap. }
      assert (PB : pb = map_read en (map (fun p => (snd p, EVar (fst p) [])) pl)).
      { unfold pb, pl, ev, tab_vars. cbn [app combine map fst snd]. now rewrite X0, Y0. }
      rewrite PB in PY5. destruct a4.
      destruct (table_both wk' F' Fs' lv upn curn cl pl s4 (with_notes (note_empty nr ++ note_empty np ++ [Ranges (2 * Z.to_nat nr) (k_lines st4); Numbers (taken (skipn (ps_ofs s3) CL) (k_lines st4))]) (with_lines (skipn (ps_ofs s3) CL) st4)) s5 st5) as (C6 & KL6 & KU6 & O6).
      - apply core_notes. now apply core_lines.
      - intros z Z. destruct (KC z Z) as (K1 & K3). split; [now apply SF5|]. split; [|exact K1]. apply (cx_work _ _ _ _ _ X5). apply IN5. unfold tab1_names, tab2_names. cbn [cl map fst In app] in *. tauto.
      - exact ND.
      - unfold cl. repeat (apply Forall_cons; [cbn [fst snd]; first [now apply alike_floats|now apply alike_ints]|]). apply Forall_nil.
      - exact NDP.
      - intros z. cbn [cl pl map fst snd In]. tauto.
      - exact PY5.
      - exact CP5.
      - exact (proj2 FI5).
      - split; [exact C6|]. split; [|exact KU6]. rewrite O6, O5. exact KL6. }
    assert (IN2 : incl (named name (tab1_names x y)) N) by (intros z Z; apply IN; apply in_or_app; now right).
    assert (ADD : forall u v w, reg_columns u lv v [fst x; fst y; $"INT"; $"NBT"] = Some w -> adds v w (tab1_names x y)).
    { intros u v w H. apply reg_columns_adds in H as (A & _). eapply adds_weak; [exact A|]. unfold tab1_names, tab2_names. intros z. cbn [In app]. tauto. }
    destruct (named_both pb cb name _ (tab1_names x y) [] wk F Fs lv N U outer up c1 cur' s3 st2 tt s' st' C3 X SU RG SF IN2 (incl_nil_l U) AP (still_fields _) GR ADD BODY PY CP FI) as (C4 & KL4 & KU4).
    split; [|congruence]. split; [exact C4|]. split; [|exact KL4].
    destruct (still_section name _ (still_fields _) _ _ _ PY) as (_ & _ & _ & _ & SL & SO). congruence.
  Qed.
  Lemma tab2_both wk F Fs lv N U outer up cur cur' cs f name : ctx F Fs N U outer -> Forall2 sub up Fs -> reg_instr up lv cur (ITab2 cs f name) = Some cur' -> sub cur' F ->
    incl (own_names (ITab2 cs f name)) N -> named_apart outer name tab2_names [] ->
    step_ok (do_tab2 en cs f name) (run_tab2 o c up lv cur f name) wk F Fs lv.
  Proof.
    intros X SU RG SF IN AP s st s' st' P PY CP FI. cbn [reg_instr own_names] in RG, IN.
    destruct (reg_fields up lv cur (tab2_fields f)) as [c1|] eqn:R1; [|discriminate].
    unfold do_tab2 in PY. cbn [read_env e_write e_ro] in PY.
    apply mbind_ok in PY as ([[r cc] tb] & s1 & RW & PY). apply mbind_ok in PY as ([] & s2 & SP & PY). apply mbind_ok in PY as ([] & s3 & MR & PY).
    unfold run_tab2, fields_reg in CP. rewrite R1 in CP. cbs CP as [line st1] NX. cbs CP as st2 RF.
    destruct (vars_in up c1 name) as [upn curn] eqn:VI.
    set (cb := fun s3 : cstate => _) in CP.
    assert (GR : forall p r, cb p = Val r -> grows p r).
    { intros p0 r0 H. unfold cb in H. cb H. cb H. destruct a0 as [t rr].
      eapply grows_trans; [|eapply run_columns_grows; exact H]. apply (grows_notes (with_lines rr p0)). }
    assert (RC1 : adds c1 cur' (named name tab2_names)).
    { eapply reg_named_adds; [exact RG|]. intros c0 H. apply reg_columns_adds in H as (A & _). eapply adds_weak; [exact A|]. unfold tab2_names. intros z. cbn [In app]. tauto. }
    assert (L3 : ps_look s3 = None).
    { destruct P as (C & _). apply spec_same in SP. subst s2. destruct (still_fields _ _ _ _ MR) as (_ & _ & _ & LK & _). apply LK. unfold read_with in RW.
      destruct (skip_blank_lines _ _); [|discriminate]. destruct (read_tab2 _ _ _) as [[? ?]|]; [|discriminate]. injection RW as _ <-. apply C. }
    rewrite (proceed_run tt) in PY by exact L3. destruct tb as [n i]. cbn [fst snd] in PY.
    assert (OF : (ps_ofs s3 <= length body)%nat).
    { destruct (still_section name _ (still_fields _) _ _ _ PY) as (_ & _ & _ & _ & _ & SO). rewrite <- SO. apply FI. }
    assert (NT2 : Forall regular_note (k_notes st2)) by (eapply grows_regular; [eapply in_named_grows; [exact GR|exact CP]|apply FI]).
    assert (S1 : sub c1 F) by (eapply sub_trans; [apply RC1|exact SF]).
    destruct (head_both (read_tab2 ro) cs (fun r => [C1 r; C2 r; L1 r; L2 r; N2 r]) (tab2_fields f) wk F Fs lv N U outer up cur c1 s st r cc (n, i) s1 s2 s3 line st1 st2)
      as (p & q & -> & RD & Q & NE & NB & RN1 & RN2 & C3 & PL3 & O3 & KL3 & KU3); auto.
    { intros p r0 cc0 tb q H. apply tab2_cont in H as (A & B & _). auto. }
    { intros ln r0 A0 A1 A2 A3 A4 A5 A6. apply cont_line_vals; assumption. }
    { intros z Z. apply IN. apply in_or_app. left. now apply cf_names_tab2. }
    apply tab2_cont in RD as (PQ & _ & iv & RI & TB). injection TB as -> ->.
    pose proof RN1 as (nr & EN1 & _). 
    match type of PY with in_section _ _ ?m _ = _ => set (pb := m) in PY end.
    assert (BODY : body_ok pb cb name (fun up' c => reg_columns up' lv c [$"INT"; $"NBT"]) tab2_names [] lv up c1 s3 st2).
    { intros wk' F' Fs' N' U' outer' up' v w s4 st4 a4 s5 st5 C5 X5 SU5 RG5 SF5 IN5 _ VI' PL5 O5 KL5 PY5 CP5 FI5.
      apply reg_columns_adds in RG5 as (AD & KC). unfold cb in CP5. clear VI'.
      assert (ND : NoDup [$"INT"; $"NBT"]) by (repeat (apply NoDup_cons; [cbn [In]; intuition discriminate|]); apply NoDup_nil).
      cbs CP5 as nr' ER. cbs CP5 as [t rr] ET.
      assert (nr' = nr) as -> by (pose proof (int_field_same line 4 (N1 r) nr' NB ltac:(lia) RN1 ER); congruence).
      assert (NT : Forall regular_note (note_empty nr ++ [Ranges (2 * Z.to_nat nr) (k_lines st4); Numbers (taken rr (k_lines st4))])).
      { pose proof (proj2 FI5) as H. apply grows_regular with (1 := run_columns_grows _ _ _ _ _ CP5) in H. cbn [with_notes k_notes] in H. now apply Forall_app in H as [_ H]. }
      apply Forall_app in NT as [T1 NT]. apply empty_notes in T1. inversion NT as [|? ? T3 NT4]; subst. inversion NT4 as [|? ? T4 _]; subst. clear NT NT4. cbn [regular_note] in T3, T4.
      unfold cpp_read_tab2_body in ET. cbs ET as [is r1] EV1. cbs ET as t' ES1. injection ET as <- <-.
      rewrite KL5, KL3 in EV1, T3, T4.
      assert (NU : forall k, (k < 2 * Z.to_nat nr)%nat -> numeric (nth (S (ps_ofs s) + k / 6) CL [])).
      { pose proof EV1 as V1. apply vec_points in V1 as (-> & L1 & _); [|lia].
        intros k K. eapply taken_numeric; [exact L1|exact T4|now apply line_count]. }
      rewrite EN1 in RI. cbn [num_as_Z] in RI.
      destruct (ints_table nr (S (ps_ofs s)) iv (ps_ofs s3) (co_validate o) _ t' r1 T1 NU T3 RI Q eq_refl) as (I1 & I2 & ->).
      { rewrite EV1. cbn [cbind]. now rewrite ES1. }
      set (cl := [($"INT", (VList (map vn (odds iv)), ints (snd t'))); ($"NBT", (VList (map vn (evens iv)), ints (fst t')))]).
      set (pl := [($"NBT", VList (map vn (evens iv))); ($"INT", VList (map vn (odds iv)))]).
      assert (NDP : NoDup (map fst pl)).
      { cbn [pl map fst]. eapply Permutation.Permutation_NoDup; [|exact ND]. apply Permutation.perm_swap. }
      assert (PB : pb = map_read en (map (fun p => (snd p, EVar (fst p) [])) pl)).
      { reflexivity. }
      rewrite PB in PY5. destruct a4.
      destruct (table_both wk' F' Fs' lv upn curn cl pl s4 (with_notes (note_empty nr ++ [Ranges (2 * Z.to_nat nr) (k_lines st4); Numbers (taken (skipn (ps_ofs s3) CL) (k_lines st4))]) (with_lines (skipn (ps_ofs s3) CL) st4)) s5 st5) as (C6 & KL6 & KU6 & O6).
      - apply core_notes. now apply core_lines.
      - intros z Z. destruct (KC z Z) as (K1 & K3). split; [now apply SF5|]. split; [|exact K1]. apply (cx_work _ _ _ _ _ X5). apply IN5. unfold tab2_names. cbn [cl map fst In app] in *. tauto.
      - exact ND.
      - unfold cl. repeat (apply Forall_cons; [cbn [fst snd]; first [now apply alike_floats|now apply alike_ints]|]). apply Forall_nil.
      - exact NDP.
      - intros z. cbn [cl pl map fst snd In]. tauto.
      - exact PY5.
      - exact CP5.
      - exact (proj2 FI5).
      - split; [exact C6|]. split; [|exact KU6]. rewrite O6, O5. exact KL6. }
    assert (IN2 : incl (named name tab2_names) N) by (intros z Z; apply IN; apply in_or_app; now right).
    assert (ADD : forall u v w, reg_columns u lv v [$"INT"; $"NBT"] = Some w -> adds v w tab2_names).
    { intros u v w H. apply reg_columns_adds in H as (A & _). eapply adds_weak; [exact A|]. unfold tab2_names. intros z. cbn [In app]. tauto. }
    destruct (named_both pb cb name _ tab2_names [] wk F Fs lv N U outer up c1 cur' s3 st2 tt s' st' C3 X SU RG SF IN2 (incl_nil_l U) AP (still_fields _) GR ADD BODY PY CP FI) as (C4 & KL4 & KU4).
    split; [|congruence]. split; [exact C4|]. split; [|exact KL4].
    destruct (still_section name _ (still_fields _) _ _ _ PY) as (_ & _ & _ & _ & SL & SO). congruence.
  Qed.

  Lemma list_rec_both wk F Fs lv N U outer up cur cur' cs f lb name : ctx F Fs N U outer -> Forall2 sub up Fs -> reg_instr up lv cur (IList cs f lb name) = Some cur' -> sub cur' F ->
    incl (own_names (IList cs f lb name)) N -> incl (lbody_used lb) U -> named_apart outer name (lbody_names lb) (lbody_used lb) ->
    step_ok (do_list en cs f lb name) (run_listrec o c up lv cur f lb name) wk F Fs lv.
  Proof.
    intros X SU RG SF IN IU AP s st s' st' P PY CP FI. cbn [reg_instr own_names] in RG, IN.
    destruct (reg_fields up lv cur (cont_fields f)) as [c1|] eqn:R1; [|discriminate].
    unfold do_list in PY. cbn [read_env e_write e_ro] in PY.
    apply mbind_ok in PY as ([[r cc] vals] & s1 & RW & PY). apply mbind_ok in PY as ([] & s2 & SP & PY). apply mbind_ok in PY as ([] & s3 & MR & PY).
    unfold run_listrec, fields_reg in CP. rewrite R1 in CP. cbs CP as [line st1] NX. cbs CP as st2 RF.
    destruct (vars_in up c1 name) as [upn curn] eqn:VI.
    set (cb := fun s3 : cstate => _) in CP.
    assert (GR : forall p r, cb p = Val r -> grows p r).
    { intros p0 r0 H. unfold cb in H. cb H. apply run_list_grows in H. eapply grows_trans; [|exact H]. apply grows_notes. }
    assert (ADD : forall u v w, reg_lbody u lv v lb = Some w -> adds v w (lbody_names lb)) by (intros u v w; apply (proj2 reg_list_adds)).
    assert (RC1 : adds c1 cur' (named name (lbody_names lb))).
    { eapply reg_named_adds; [exact RG|]. intros c0 H. exact (ADD _ _ _ H). }
    assert (L3 : ps_look s3 = None).
    { destruct P as (C & _). apply spec_same in SP. subst s2. destruct (still_fields _ _ _ _ MR) as (_ & _ & _ & LK & _). apply LK. unfold read_with in RW.
      destruct (skip_blank_lines _ _); [|discriminate]. destruct (read_list _ _ _) as [[? ?]|]; [|discriminate]. injection RW as _ <-. apply C. }
    rewrite (proceed_run tt) in PY by exact L3.
    apply mbind_ok in PY as ([vs pos] & s4 & PY & PE). assert (s' = s4) by (destruct (Nat.ltb _ _); [discriminate|]; now injection PE). subst s4. clear PE.
    assert (OF : (ps_ofs s3 <= length body)%nat).
    { destruct (still_section name _ (still_list _ _) _ _ _ PY) as (_ & _ & _ & _ & _ & SO). rewrite <- SO. apply FI. }
    assert (NT2 : Forall regular_note (k_notes st2)) by (eapply grows_regular; [eapply in_named_grows; [exact GR|exact CP]|apply FI]).
    assert (S1 : sub c1 F) by (eapply sub_trans; [apply RC1|exact SF]).
    destruct (head_both (read_list ro) cs (fun r => [C1 r; C2 r; L1 r; L2 r; N1 r; N2 r]) (cont_fields f) wk F Fs lv N U outer up cur c1 s st r cc vals s1 s2 s3 line st1 st2)
      as (p & q & -> & RD & Q & NE & NB & RN1 & _ & C3 & PL3 & O3 & KL3 & KU3); auto.
    { intros p r0 cc0 tb q H. apply list_cont in H as (A & B & _). auto. }
    { intros ln r0 A0 A1 A2 A3 A4 A5 A6. apply cont_line_vals; assumption. }
    { intros z Z. apply IN. apply in_or_app. left. now apply cf_names_cont. }
    apply list_cont in RD as (PQ & _ & RV).
    pose proof RN1 as (npl & EN1 & _).
    match type of PY with in_section _ _ ?m _ = _ => set (pb := m) in PY end.
    assert (BODY : body_ok pb cb name (fun up' c => reg_lbody up' lv c lb) (lbody_names lb) (lbody_used lb) lv up c1 s3 st2).
    { intros wk' F' Fs' N' U' outer' up' v w s4 st4 a4 s5 st5 C5 X5 SU5 RG5 SF5 IN5 IU5 VI' PL5 O5 KL5 PY5 CP5 FI5. rewrite VI in VI'. injection VI' as -> ->.
      unfold cb in CP5. cbs CP5 as npl' ER.
      assert (npl' = npl) as -> by (pose proof (int_field_same line 4 (N1 r) npl' NB ltac:(lia) RN1 ER); congruence).
      assert (T1 : 0 < npl).
      { pose proof (proj2 FI5) as H. apply grows_regular with (1 := run_list_grows _ _ _ _ _ _ _ _ _ CP5) in H. cbn [with_notes k_notes] in H. apply Forall_app in H as [_ H]. now apply empty_notes. }
      rewrite EN1 in RV. cbn [num_as_Z] in RV. specialize (RV T1). unfold read_endf_numbers in RV.
      destruct (read_numbers_loop ro _ PL npl _) as [[vs' q']|] eqn:RL; [|discriminate]. cbn [bind] in RV. injection RV as <- <-.
      destruct (numbers_at body ends send o ro SR NL _ _ _ _ RL Q) as [EQ FA].
      assert (LEN : length vs' = Z.to_nat npl) by (rewrite <- (forall2_len _ _ _ FA); apply seq_length).
      assert (VV : forall k v, nth_error vs' k = Some v -> plain_line (nth (S (ps_ofs s) + k / 6) CL []) /\ reads_as ro TFloat (cfield (nth (S (ps_ofs s) + k / 6) CL []) (k mod 6)) v).
      { intros k v0 KV. assert (KL : (k < Z.to_nat npl)%nat) by (rewrite <- LEN; apply nth_error_Some; congruence). split.
        - apply (field_no_line body ends send NL). pose proof (line_count k (Z.to_nat npl) KL). lia.
        - cbn [reads_as]. clear - FA KV. assert (G : forall n a l j, Forall2 (fun k v => read_fort_float ro (cfield (nth (S (ps_ofs s) + k / 6) CL []) (k mod 6)) = Ok v) (seq a n) l ->
            nth_error l j = Some v0 -> read_fort_float ro (cfield (nth (S (ps_ofs s) + (a + j) / 6) CL []) ((a + j) mod 6)) = Ok v0).
          { induction n as [|n IH]; intros a l j H NJ; cbn [seq] in H; inversion H; subst; [destruct j; discriminate|]. destruct j as [|j]; cbn [nth_error] in NJ.
            - injection NJ as ->. now rewrite Nat.add_0_r.
            - replace (a + S j)%nat with (S a + j)%nat by lia. eapply IH; eauto. }
          exact (G _ _ _ _ FA KV). }
      destruct (run_list_both npl (S (ps_ofs s)) vs' T1 LEN VV wk' F' Fs' lv N' U' outer' up' v w lb s4 (with_notes (note_empty npl) st4) a4 s5 st5) as (C6 & KL6 & KU6); auto.
      - now apply core_notes.
      - cbn [with_notes k_lines]. now rewrite KL5.
      - exact (proj2 FI5).
      - split; [exact C6|]. split; [|exact KU6]. rewrite KL6, <- EQ. destruct (still_list _ _ _ _ _ PY5) as (_ & _ & _ & _ & _ & SO). now rewrite SO, O5, O3. }
    assert (IN2 : incl (named name (lbody_names lb)) N) by (intros z Z; apply IN; apply in_or_app; now right).
    destruct (named_both pb cb name _ (lbody_names lb) (lbody_used lb) wk F Fs lv N U outer up c1 cur' s3 st2 (vs, pos) s' st' C3 X SU RG SF IN2 IU AP (still_list _ _) GR ADD BODY PY CP FI) as (C4 & KL4 & KU4).
    split; [|congruence]. split; [exact C4|]. split; [|exact KL4].
    destruct (still_section name _ (still_list _ _) _ _ _ PY) as (_ & _ & _ & _ & SL & SO). congruence.
  Qed.

  (** ** Sections and conditions *)

  (** the entries of the interpreter while a recipe or a section runs *)
  Definition wk_in (u : option val) (x : str) : option val :=
    if str_eqb x $"__startidcs" then Some (VDict []) else if str_eqb x $"__abbrevs" then Some (VNames []) else
    if str_eqb x $"__up" then u else None.
  Definition wk_out (u : option val) (x : str) : option val := if str_eqb x $"__up" then u else None.
  Lemma frel_work wk wk' F d d' f : frel working wk F d f -> NoDup (map fst d') ->
    (forall k, (forall x, In x working -> k <> KStr x) -> dget k d' = dget k d) -> (forall x, In x working -> dget (KStr x) d' = wk' x) ->
    frel working wk' F d' f.
  Proof.
    intros R N E W. split; try apply R; auto.
    - intros z. rewrite E by (intros x _; discriminate). apply R.
    - intros x X. rewrite E by (intros y Y Q; injection Q as ->; contradiction). now apply (fr_entry _ _ _ _ _ R).
  Qed.
  Lemma working_cases (P : str -> Prop) : P $"__up" -> P $"__abbrevs" -> P $"__startidcs" -> forall x, In x working -> P x.
  Proof. intros A B C x [<-|[<-|[<-|[]]]]; assumption. Qed.
  Lemma init_both wk u F d f : frel working wk F d f -> wk $"__up" = u -> frel working (wk_in u) F (init_working d) f.
  Proof.
    intros R U. unfold init_working. eapply frel_work; [exact R| | |].
    - apply dset_nodup, dset_nodup, R.
    - intros k K. rewrite !dget_dset_other; [reflexivity| |]; apply K; [right; now left|right; right; now left].
    - apply working_cases.
      + rewrite !dget_dset_other by discriminate. rewrite (fr_work _ _ _ _ _ R) by now left. exact U.
      + rewrite dget_dset_other by discriminate. apply dget_dset_same.
      + apply dget_dset_same.
  Qed.
  Lemma remove_both u F f s s' : frel working (wk_in u) F (ps_dic s) f -> remove_working s = (Ok tt, s') ->
    exists d', s' = set_dic d' s /\ frel working (wk_out u) F d' f.
  Proof.
    intros R H. unfold remove_working in H. rewrite (fr_work _ _ _ _ _ R) in H by (right; now left). change (wk_in u $"__abbrevs") with (Some (VNames [])) in H.
    cbn [del_names] in H. injection H as <-. eexists. split; [reflexivity|]. eapply frel_work; [exact R| | |].
    - apply ddel_nodup, ddel_nodup, R.
    - intros k K. rewrite !dget_ddel_keep; [reflexivity| |]; apply K; [right; now left|right; right; now left].
    - assert (ND : NoDup (map fst (ddel (KStr $"__abbrevs") (ps_dic s)))) by apply ddel_nodup, R. apply working_cases.
      + rewrite !dget_ddel_keep by discriminate. rewrite (fr_work _ _ _ _ _ R) by now left. reflexivity.
      + rewrite dget_ddel_keep by discriminate. apply dget_ddel_gone, R.
      + now apply dget_ddel_gone.
  Qed.
  Lemma core_dic wk wk' F Fs lv s st d : core wk F Fs lv s st -> frel working wk' F d (k_cur st) -> core wk' F Fs lv (set_dic d s) st.
  Proof. intros [A1 A2 A3 A4 A5] R. split; assumption. Qed.

  Definition inner (b : block) : M unit :=
    run _ <- modify (fun s => set_dic (init_working (ps_dic s)) s); run _ <- exec_block en b; remove_working.
  Lemma inner_ahead b : keeps (outside ahead) (inner b).
  Proof.
    intros s a s' H. unfold inner in H. apply mbind_ok in H as ([] & s1 & H1 & H). injection H1 as <-. apply mbind_ok in H as ([] & s2 & H2 & H).
    apply (proj2 exec_ahead) in H2 as (A1 & A2 & A3 & A4 & A5). unfold remove_working in H. destruct (dget _ (ps_dic s2)) as [[]|]; try discriminate.
    destruct (del_names _ _); [|discriminate]. injection H as _ <-. repeat split; try assumption; apply A5.
  Qed.

  Lemma test_both wk F Fs lv N U outer up cur q pb s st t s1 t' : core wk F Fs lv s st -> ctx F Fs N U outer -> Forall2 sub (cur :: up) (F :: Fs) ->
    incl (cond_names q) U -> int_cond up lv cur q = true -> if_statement en q None pb s = (Ok t, s1) -> ccond up lv cur st q = Val t' -> s1 = s /\ t = t'.
  Proof.
    intros C X S IU IC T CC. unfold if_statement in T. injection T as T <-. split; [reflexivity|].
    eapply (cond_both wk F Fs N U outer up lv cur X S s st (cr_frel _ _ _ _ _ _ C) (cr_ups _ _ _ _ _ _ C) (cr_loops _ _ _ _ _ _ C) (cr_lv _ _ _ _ _ _ C)); eauto.
  Qed.
  Lemma reg_branches_sub up lv cur : forall r acc acc', reg_branches up lv cur acc r = Some acc' -> sub acc acc'.
  Proof.
    induction r as [|b r IH]; intros acc acc' H; cbn [reg_branches] in H; [injection H as <-; apply sub_refl|].
    destruct (reg_branch up lv cur b) as [c1|]; [|discriminate]. destruct (merge acc c1) as [m|] eqn:M; [|discriminate]. apply merge_sub in M as (A & _).
    eapply sub_trans; [exact A|eauto].
  Qed.

  Lemma step_mid wk F Fs lv (pi pr : M unit) ci cr : keeps (outside ahead) pr -> (forall p r, cr p = Val r -> grows p r) ->
    step_ok pi ci wk F Fs lv -> step_ok pr cr wk F Fs lv -> step_ok (run _ <- pi; pr) (fun st => let* st1 := ci st in cr st1) wk F Fs lv.
  Proof.
    intros KP GR S1 S2 s st s' st' P PY CP FI. apply mbind_ok in PY as ([] & s1 & H1 & H2). cbs CP as st1 E1.
    assert (F1 : fine s1 st1).
    { destruct FI as [O N]. split; [|eapply grows_regular; eauto]. destruct (KP _ _ _ H2) as (_ & _ & _ & _ & _ & A). lia. }
    destruct (S1 _ _ _ _ P H1 E1 F1) as [P1 U1]. destruct (S2 _ _ _ _ P1 H2 CP FI) as [P2 U2]. split; [exact P2|congruence].
  Qed.

  Lemma crun_section_eq up lv cur h t b s : crun o c up lv cur (ISection h t b) s = in_frame h (crun_block o c (kadd (fst h) KSec cur :: up) lv [] b) s.
  Proof. destruct h. reflexivity. Qed.
  Lemma crun_for_eq up lv cur v a b bd s : crun o c up lv cur (IFor v a b bd) s =
    for_loop v a (fun s => ceval up lv cur s b) with_loops k_loops (crun_block o c up (v :: lv) cur bd) s.
  Proof. reflexivity. Qed.
  Lemma crun_if_eq up lv cur first more els s : crun o c up lv cur (IIf first more els) s =
    let* t := ctest up lv cur first s in
    if (t : bool) then crun_branch o c up lv cur first s else crun_branches o c up lv cur more (crun_block o c up lv cur els) s.
  Proof. reflexivity. Qed.
  Lemma crun_cons_eq up lv cur i r s : crun_block o c up lv cur (BCons i r) s =
    let* s' := crun o c up lv cur i s in
    match reg_instr up lv cur i with Some cur' => crun_block o c up lv cur' r s' | None => Undefined end.
  Proof. reflexivity. Qed.
  Lemma crun_branch_eq up lv cur q la b s : crun_branch o c up lv cur (Branch q la b) s = crun_block o c up lv cur b s.
  Proof. reflexivity. Qed.
  Lemma crun_rcons_eq up lv cur b r els s : crun_branches o c up lv cur (RCons b r) els s =
    let* t := ctest up lv cur b s in
    if (t : bool) then crun_branch o c up lv cur b s else crun_branches o c up lv cur r els s.
  Proof. reflexivity. Qed.

  Lemma guarded_step m b ci wk F Fs lv : step_ok m ci wk F Fs lv -> step_ok (guarded b m) ci wk F Fs lv.
  Proof. intros H s st s' st' P PY CP FI. rewrite guarded_run in PY by apply P. eauto. Qed.

  Lemma reg_branch_test up lv cur q la b c1 : reg_branch up lv cur (Branch q la b) = Some c1 -> la = None /\ int_cond up lv cur q = true /\ reg_block up lv cur b = Some c1.
  Proof. cbn [reg_branch]. destruct la; [discriminate|]. destruct (int_cond up lv cur q); [auto|discriminate]. Qed.

  Lemma run_both :
    (forall i wk F Fs lv N U outer up cur cur', ctx F Fs N U outer -> Forall2 sub up Fs -> reg_instr up lv cur i = Some cur' -> sub cur' F ->
       incl (own_names i) N -> incl (used i) U -> apart outer i -> step_ok (exec en i) (crun o c up lv cur i) wk F Fs lv) /\
    (forall b wk F Fs lv N U outer up cur cur', ctx F Fs N U outer -> Forall2 sub up Fs -> reg_block up lv cur b = Some cur' -> sub cur' F ->
       incl (own_names_block b) N -> incl (used_block b) U -> apart_block outer b -> step_ok (exec_block en b) (crun_block o c up lv cur b) wk F Fs lv) /\
    (forall b wk F Fs lv N U outer up cur cur', ctx F Fs N U outer -> Forall2 sub up Fs -> reg_branch up lv cur b = Some cur' -> sub cur' F ->
       incl (own_names_branch b) N -> incl (used_branch b) U -> apart_branch outer b -> step_ok (exec_branch en b) (crun_branch o c up lv cur b) wk F Fs lv) /\
    (forall r wk F Fs lv N U outer up cur acc acc' pels cels, ctx F Fs N U outer -> Forall2 sub up Fs -> sub cur F -> reg_branches up lv cur acc r = Some acc' -> sub acc' F ->
       incl (own_names_branches r) N -> incl (used_branches r) U -> apart_branches outer r -> step_ok pels cels wk F Fs lv ->
       step_ok (exec_branches en r pels) (crun_branches o c up lv cur r cels) wk F Fs lv).
  Proof.
    apply recipe_mut; try (intros; discriminate).
    - intros head cs f wk F Fs lv N U outer up cur cur' X SU RG SF IN IU AP. destruct head; [discriminate|]. apply guarded_step. eapply cont_both; eauto.
    - intros cs f wk F Fs lv N U outer up cur cur' X SU RG SF IN IU AP. cbn [reg_instr] in RG. destruct up; [|discriminate]. apply guarded_step. eapply text_both; eauto.
    - intros cs l1 l2 n1 n2 wk F Fs lv N U outer up cur cur' X SU RG SF IN IU AP. apply guarded_step. eapply dir_both; eauto.
    - intros cs f x y name wk F Fs lv N U outer up cur cur' X SU RG SF IN IU AP. apply guarded_step. eapply tab1_both; eauto.
    - intros cs f name wk F Fs lv N U outer up cur cur' X SU RG SF IN IU AP. apply guarded_step. eapply tab2_both; eauto.
    - intros cs f lb name wk F Fs lv N U outer up cur cur' X SU RG SF IN IU AP. apply guarded_step. eapply list_rec_both; eauto.
    - intros wk F Fs lv N U outer up cur cur' X SU RG SF IN IU AP. apply guarded_step. intros s st s' st' P PY CP FI. unfold do_stop in PY. cbn [read_env e_write] in PY. destruct (get_line _ _); discriminate PY.
    - intros [x q] t b IH wk F Fs lv N U outer up cur cur' X SU RG SF IN IU AP. rewrite exec_section_eq. apply guarded_step.
      intros s st s' st' P PY CP FI. rewrite crun_section_eq in CP. cbn [fst] in *. destruct (negb (str_eqb x (fst t))); [discriminate|].
      cbn [reg_instr] in RG. apply reg_section_inv in RG as (KN & IX & -> & KX & (w & W)).
      destruct AP as [A1 A2]. destruct P as (C & PLs & KL).
      assert (X' : ctx w (F :: Fs) (own_names_block b) (used_block b) (own_names_block b ++ outer)).
      { eapply ctx_in; [exact X| |exact A1|exact IU]. intros y k K. apply reg_adds in W as [_ W]. apply W in K as [K|K]; [discriminate K|exact K]. }
      assert (PY' : (run _ <- open_section en (x, q); run r <- inner b; run _ <- close_section; ret r) s = (Ok tt, s')).
      { unfold inner. unfold mbind in PY |- *. destruct (open_section en (x, q) s) as [[[]|] s1]; [|discriminate].
        destruct (modify _ s1) as [[[]|] s2]; [|discriminate]. destruct (exec_block en b s2) as [[[]|] s3]; [|discriminate].
        destruct (remove_working s3) as [[[]|] s4]; [|discriminate]. destruct (close_section s4) as [[[]|] s5]; [|discriminate]. exact PY. }
      destruct (section_both (inner b) (crun_block o c (kadd x KSec cur :: up) lv [] b) w wk F Fs lv x q s st tt s' st') as (C' & KL' & KU'); auto.
      + apply (cx_work _ _ _ _ _ X). apply IN. now left.
      + intros y k K. eapply (cx_plain _ _ _ _ _ X'); [now left|exact K].
      + apply inner_ahead.
      + intros p r. apply (crun_grows o c).
      + intros s1 st1 a1 s2 st2 C1 L1 O1 K1 P1 E1 F1. unfold inner in P1. apply mbind_ok in P1 as ([] & s3 & M1 & P1). injection M1 as <-.
        apply mbind_ok in P1 as ([] & s4 & M2 & M3). destruct a1.
        assert (R4 : ps_dic s4 = ps_dic s4 /\ ps_lines s2 = ps_lines s4 /\ ps_ofs s2 = ps_ofs s4).
        { unfold remove_working in M3. destruct (dget _ (ps_dic s4)) as [[]|]; try discriminate. destruct (del_names _ _); [|discriminate]. injection M3 as <-. auto. }
        destruct R4 as (_ & R5 & R6).
        assert (P3 : pre (wk_in (Some VUp)) w (F :: Fs) lv (set_dic (init_working (ps_dic s1)) s1) st1).
        { split; [|split; [cbn; congruence|cbn [set_dic ps_ofs]; congruence]]. eapply core_dic; [exact C1|]. eapply init_both; [apply C1|reflexivity]. }
        assert (F4 : fine s4 st2) by (destruct F1 as [F1 F2]; split; [lia|exact F2]).
        destruct (IH (wk_in (Some VUp)) w (F :: Fs) lv (own_names_block b) (used_block b) (own_names_block b ++ outer) (kadd x KSec cur :: up) [] w X' (Forall2_cons _ _ SF SU) W (sub_refl w) (fun z Z => Z) (fun z Z => Z) A2
          _ _ _ _ P3 M2 E1 F4) as ((C4 & PL4 & KL4) & KU4).
        destruct (remove_both (Some VUp) w (k_cur st2) s4 s2 (cr_frel _ _ _ _ _ _ C4) M3) as (d' & -> & FR).
        split; [|split; [exact KL4|exact KU4]]. eapply core_dic; [exact C4|exact FR].
      + split; [|exact KU']. split; [exact C'|]. split; [|exact KL'].
        apply mbind_ok in PY' as ([] & s1 & M1 & PY'). apply mbind_ok in PY' as ([] & s2 & M2 & PY'). apply mbind_ok in PY' as ([] & s3 & M3 & PY'). injection PY' as <-.
        destruct (inner_ahead b _ _ _ M2) as (_ & _ & _ & _ & A5 & _).
        unfold close_section in M3. destruct (ps_up s2); [discriminate|]. injection M3 as <-. cbn [set_up ps_lines]. rewrite A5.
        unfold open_section in M1. destruct (bind _ _) as [[[? ?] ?]|]; [|discriminate]. injection M1 as <-. exact PLs.
    - intros v a b bd IH wk F Fs lv N U outer up cur cur' X SU RG SF IN IU AP. rewrite exec_for_eq. apply guarded_step.
      intros s st s' st' P PY CP FI. rewrite crun_for_eq in CP. cbn [reg_instr] in RG. destruct (loop_ok up lv cur v a b) eqn:LK; [|discriminate].
      assert (SC : sub cur F) by (eapply sub_trans; [apply (proj1 (proj2 reg_adds) _ _ _ _ _ RG)|exact SF]).
      cbn [used] in IU. apply incl_app_inv in IU as [_ IU]. apply incl_app_inv in IU as [IUB IU].
      eapply (for_both_run v a b (exec_block en bd) (crun_block o c up (v :: lv) cur bd)); eauto.
      + apply exec_ahead.
      + intros p r. apply (crun_grows o c).
      + intros s0 st0 s0' st0' P0 PY0 CP0 FI0. exact (IH wk F Fs (v :: lv) N U outer up cur cur' X SU RG SF IN IU AP _ _ _ _ P0 PY0 CP0 FI0).
    - intros [q la bd] IH1 more IH2 els IH3 wk F Fs lv N U outer up cur cur' X SU RG SF IN IU AP. rewrite exec_if_eq. apply guarded_step.
      intros s st s' st' P PY CP FI. rewrite crun_if_eq in CP. cbn [reg_instr own_names used apart] in *.
      apply incl_app_inv in IU as [IU1 IU]. apply incl_app_inv in IU as [IU2 IU3]. pose proof (incl_app_inv _ _ IU1) as [IUC _]. destruct AP as (AP1 & AP2 & AP3).
      destruct (reg_branch up lv cur (Branch q la bd)) as [c1|] eqn:R1; [|discriminate].
      destruct (reg_branches up lv cur c1 more) as [c2|] eqn:R2; [|discriminate]. destruct (reg_block up lv cur els) as [c3|] eqn:R3; [|discriminate].
      apply merge_sub in RG as (G1 & G2 & _). pose proof (reg_branches_sub _ _ _ _ _ _ R2) as G3.
      assert (SC : sub cur F) by (eapply sub_trans; [apply (proj1 (proj2 reg_adds) _ _ _ _ _ R3)|eapply sub_trans; [exact G2|exact SF]]).
      destruct (reg_branch_test _ _ _ _ _ _ _ R1) as (-> & IC & _).
      apply mbind_ok in PY as (t & s1 & T1 & PY). cbs CP as t' T2. rewrite test_branch_eq in T1.
      destruct (test_both wk F Fs lv N U outer up cur q _ s st t s1 t' (proj1 P) X (Forall2_cons _ _ SC SU) IUC IC T1 T2) as [-> ->].
      destruct t'.
      + eapply (IH1 wk F Fs lv N U outer up cur c1); eauto.
        * eapply sub_trans; [exact G3|]. eapply sub_trans; [exact G1|exact SF].
        * intros z Z. apply IN. apply in_or_app. now left.
      + eapply (IH2 wk F Fs lv N U outer up cur c1 c2 (exec_block en els) (crun_block o c up lv cur els)); eauto.
        * eapply sub_trans; [exact G1|exact SF].
        * intros z Z. apply IN. apply in_or_app. right. apply in_or_app. now left.
        * eapply IH3; eauto; [eapply sub_trans; [exact G2|exact SF]|]. intros z Z. apply IN. apply in_or_app. right. apply in_or_app. now right.
    - intros wk F Fs lv N U outer up cur cur' X SU RG SF IN IU AP s st s' st' P PY CP FI. rewrite exec_nil_eq in PY. injection PY as <-. injection CP as <-. auto.
    - intros i IHi r IHr wk F Fs lv N U outer up cur cur' X SU RG SF IN IU AP s st s' st' P PY CP FI. rewrite crun_cons_eq in CP. rewrite exec_cons_eq in PY.
      unfold mbind at 1, should_proceed in PY. rewrite (cr_look _ _ _ _ _ _ (proj1 P)) in PY.
      cbn [reg_block own_names_block used_block apart_block] in *. apply incl_app_inv in IU as [IU1 IU2]. destruct (reg_instr up lv cur i) as [c1|] eqn:R1; [|discriminate]. destruct AP as [AP1 AP2].
      assert (S1 : sub c1 F) by (eapply sub_trans; [apply (proj1 (proj2 reg_adds) _ _ _ _ _ RG)|exact SF]).
      eapply (step_mid wk F Fs lv (exec en i) (exec_block en r) (crun o c up lv cur i) (crun_block o c up lv c1 r)); eauto.
      + apply exec_ahead.
      + intros p q. apply (crun_grows o c).
      + eapply IHi; eauto. intros z Z. apply IN. apply in_or_app. now left.
      + eapply IHr; eauto. intros z Z. apply IN. apply in_or_app. now right.
    - intros q la b IH wk F Fs lv N U outer up cur cur' X SU RG SF IN IU AP s st s' st' P PY CP FI. rewrite exec_branch_eq in PY. rewrite crun_branch_eq in CP.
      cbn [used_branch] in IU. apply incl_app_inv in IU as [_ IU]. apply reg_branch_test in RG as (-> & _ & RG). eapply IH; eauto.
    - intros wk F Fs lv N U outer up cur acc acc' pels cels X SU SC RG SF IN IU AP EL s st s' st' P PY CP FI. rewrite exec_rnil_eq in PY. eapply EL; eauto.
    - intros [q la bd] IHb r IHr wk F Fs lv N U outer up cur acc acc' pels cels X SU SC RG SF IN IU AP EL s st s' st' P PY CP FI.
      rewrite exec_rcons_eq in PY. rewrite crun_rcons_eq in CP. cbn [reg_branches own_names_branches used_branches apart_branches] in *.
      apply incl_app_inv in IU as [IU1 IU2]. pose proof (incl_app_inv _ _ IU1) as [IUC _]. destruct AP as [AP1 AP2].
      destruct (reg_branch up lv cur (Branch q la bd)) as [c1|] eqn:R1; [|discriminate]. destruct (merge acc c1) as [m|] eqn:ME; [|discriminate].
      apply merge_sub in ME as (_ & G2 & _). pose proof (reg_branches_sub _ _ _ _ _ _ RG) as G3.
      destruct (reg_branch_test _ _ _ _ _ _ _ R1) as (-> & IC & _).
      apply mbind_ok in PY as (t & s1 & T1 & PY). cbs CP as t' T2. rewrite test_branch_eq in T1.
      destruct (test_both wk F Fs lv N U outer up cur q _ s st t s1 t' (proj1 P) X (Forall2_cons _ _ SC SU) IUC IC T1 T2) as [-> ->].
      destruct t'.
      + eapply (IHb wk F Fs lv N U outer up cur c1); eauto.
        * eapply sub_trans; [exact G2|]. eapply sub_trans; [exact G3|exact SF].
        * intros z Z. apply IN. apply in_or_app. now left.
      + eapply (IHr wk F Fs lv N U outer up cur m acc' pels cels); eauto. intros z Z. apply IN. apply in_or_app. now right.
  Qed.
End Sim.
