(** C31: records. *)
From Coq Require Import Ascii String ZArith Bool Lia List.
From Coq Require Import Floats.SpecFloat.
From Verif Require Import PyBase PyFloat ModelFortran ModelRecords ModelNum ModelRecipe ModelInterp.
From Verif Require Import SpecFields SpecInterp SpecRound ProofPyBase ProofFields ProofRecords.
From Verif Require Import ProofInterp ProofInterpFrame ProofInterpCtl ProofInterpSec ProofInterpWrite.
From Verif Require Import ProofRound1 ProofRound2 ProofRound3 ProofRound4 ProofThird.
Import ListNotations.
Open Scope Z_scope.

Ltac binv H a :=
  match type of H with
  | bind ?m _ = Ok _ => let E := fresh "E" in destruct m as [a|] eqn:E; cbn [bind] in H; [|discriminate H]
  end.

Ltac tys := repeat (apply Forall2_cons; [cbn [typed fst]; eexists; reflexivity|]); apply Forall2_nil.

(** ** Lines *)

Definition full (w : nat) (ls : list str) : Prop := Forall (fun l => length l = (6 * w + 9)%nat) ls.

Lemma ctrl_not_blank a c b : is_blank (a ++ write_ctrl c ++ b) = false.
Proof.
  apply is_blank_false_iff. pose proof (is_blank_rjust 4 (str_of_Z (MAT c)) (str_of_Z_no_ws _) (str_of_Z_nonnil _)) as H.
  apply is_blank_false_iff in H as (x & I & N). exists x. split; [|exact N]. unfold write_ctrl.
  rewrite !in_app_iff. auto.
Qed.

Lemma skip_here lines ofs l : get_line lines ofs = Ok l -> is_blank l = false -> skip_blank_lines lines ofs = Ok ofs.
Proof.
  unfold get_line, skip_blank_lines. intros H N. destruct (nth_error lines ofs) eqn:E; [|discriminate]. injection H as ->.
  apply nth_error_split in E as (l1 & l2 & -> & <-). rewrite skipn_app, skipn_all, Nat.sub_diag. cbn [skipn app skip_blank_from].
  now rewrite N.
Qed.

Definition has_ctrl (c : ctrl) (l : str) : Prop := exists a, l = a ++ write_ctrl c.
Lemma skip_ctrl c l ls lines ofs : has_ctrl c l -> at_lines (l :: ls) lines ofs -> skip_blank_lines lines ofs = Ok ofs.
Proof.
  intros [a ->] A. apply at_lines_cons in A as [(suf & Gl) _]. eapply skip_here; [exact Gl|].
  rewrite <- app_assoc. apply ctrl_not_blank.
Qed.

Lemma read_step {A} (rd : list str -> nat -> result (A * nat)) st l ls c a o : has_ctrl c l ->
  at_lines (l :: ls) (ps_lines st) (ps_ofs st) -> rd (ps_lines st) (ps_ofs st) = Ok (a, o) ->
  read_with rd st = (Ok a, advance (ps_ofs st) o st).
Proof. intros C At H. unfold read_with. rewrite (skip_ctrl _ _ _ _ _ C At), H. reflexivity. Qed.

(** the numbers fit if the lines have the right length *)
Lemma int_field_ge w n : (w <= length (int_field w n))%nat.
Proof. unfold int_field. rewrite length_rjust. lia. Qed.
Lemma int_field_eq w n : (1 <= w)%nat -> length (int_field w n) = w -> in_field w n.
Proof. intros W H. apply in_field_fits; [exact W|]. unfold int_field in H. rewrite length_rjust in H. unfold fits. lia. Qed.

Lemma cont_full wo ro r c ls a b l1 l2 n1 n2 : same_width wo ro -> write_cont wo r c = Ok ls -> full (w_width wo) ls ->
  float_rt wo ro (C1 r) a -> float_rt wo ro (C2 r) b ->
  L1 r = NInt l1 -> L2 r = NInt l2 -> N1 r = NInt n1 -> N2 r = NInt n2 ->
  cont_rt wo ro r {| C1 := a; C2 := b; L1 := NInt l1; L2 := NInt l2; N1 := NInt n1; N2 := NInt n2 |} /\ ctrl_fits c /\
  exists l, ls = [l] /\ has_ctrl c l.
Proof.
  intros [SW W1] H F Fa Fb E1 E2 E3 E4. unfold write_cont in H. rewrite E1, E2, E3, E4 in H. cbn [int_slot bind] in H.
  pose proof Fa as (s1 & X1 & Y1 & _). pose proof Fb as (s2 & X2 & Y2 & _). rewrite X1, X2 in H. cbn [bind] in H.
  injection H as <-. inversion F as [|? ? Fl _]; subst. rewrite !app_length in Fl.
  pose proof (int_field_ge (w_width wo) l1). pose proof (int_field_ge (w_width wo) l2).
  pose proof (int_field_ge (w_width wo) n1). pose proof (int_field_ge (w_width wo) n2).
  pose proof (length_write_ctrl_ge c).
  assert (I : forall z, length (int_field (w_width wo) z) = w_width wo -> int_rt wo (NInt z) (NInt z)).
  { intros z Hz. exists z. split; [now left|]. split; [now apply int_field_eq|reflexivity]. }
  split; [|split].
  - unfold cont_rt. cbn [C1 C2 L1 L2 N1 N2]. rewrite E1, E2, E3, E4. split; [exact Fa|]. split; [exact Fb|].
    repeat split; apply I; lia.
  - apply length_write_ctrl_iff. lia.
  - eexists. split; [reflexivity|]. rewrite !app_assoc. eexists. reflexivity.
Qed.

(** ** Control numbers *)

Lemma ctrl_shape G (GG : good_schema G) k : ~ working_key k -> forall up d d', opened up -> sec_frames G up ->
  (forall p, user_path p -> same_shape (path_get p (VDict (root up d'))) (path_get p (VDict (root up d)))) ->
  same_shape (dget k (ctrl_dic d' up)) (dget k (ctrl_dic d up)).
Proof.
  intros Nk. induction up as [|f fs IH]; intros d d' O S H; rewrite (ctrl_dic_eq _ d), (ctrl_dic_eq _ d').
  - assert (X : forall k, ~ working_key k -> same_shape (dget k d') (dget k d)).
    { intros k' N'. rewrite <- (path_one k' d), <- (path_one k' d'). apply H. constructor; [exact N'|constructor]. }
    assert (Z : forall (o : option val), match o with Some _ => d | None => d end = d) by (now intros []).
    assert (Z' : forall (o : option val), match o with Some _ => d' | None => d' end = d') by (now intros []).
    rewrite Z, Z'. now apply X.
  - assert (X : forall k, ~ working_key k -> same_shape (dget k d') (dget k d)).
    { intros k' N'. rewrite (root_dget (f :: fs) d), (root_dget (f :: fs) d') by exact O. apply H.
      apply user_app. split; [now apply (user_pre G GG)|]. constructor; [exact N'|constructor]. }
    assert (NM : ~ working_key (KStr $"MAT")) by (intros [E|[E|E]]; discriminate).
    destruct (X _ NM) as [E|(e & e' & E1 & E2)].
    + rewrite E. destruct (dget (KStr $"MAT") d); [now apply X|]. inversion O; subst. destruct S as [_ S].
      apply IH; [assumption|exact S|exact H].
    + rewrite E1, E2. now apply X.
Qed.

Lemma as_Z_list vs : forall zs, mapM as_Z vs = Ok zs -> vs = map vint zs.
Proof.
  induction vs as [|v vs IH]; intros zs H; cbn [mapM] in H; [now injection H as <-|].
  binv H z. binv H r. injection H as <-. cbn [map]. now rewrite (as_Z_inv _ _ E), (IH r).
Qed.
Lemma as_num_inv v n : as_num v = Ok n -> v = VNum n.
Proof. destruct v; try discriminate. now intros H; injection H as ->. Qed.
Lemma as_num_list vs : forall ns, mapM as_num vs = Ok ns -> vs = map VNum ns.
Proof.
  induction vs as [|v vs IH]; intros zs H; cbn [mapM] in H; [now injection H as <-|].
  binv H z. binv H r. injection H as <-. cbn [map]. now rewrite (as_num_inv _ _ E), (IH r).
Qed.
Lemma as_Zs_inv v zs : as_Zs v = Ok zs -> v = VList (map vint zs).
Proof. destruct v; try discriminate. intros H. cbn [as_Zs] in H. now rewrite (as_Z_list _ _ H). Qed.
Lemma as_nums_inv v ns : as_nums v = Ok ns -> v = VList (map VNum ns).
Proof. destruct v; try discriminate. intros H. cbn [as_nums] in H. now rewrite (as_num_list _ _ H). Qed.

Section Records.
  Variable wo : wopts.
  Variable ro : ropts.
  Variable blank : bool.
  Variable depth : nat.
  Variable G : schema.
  Hypothesis GG : good_schema G.
  Variable D : dict.
  Hypothesis CD : conforms wo ro G D.
  Hypothesis ZO : zeros_ok wo ro.
  Hypothesis SW : same_width wo ro.

  Let EW := write_env ro wo blank depth.
  Let ER := read_env ro wo depth.
  Let wst := wst G D.
  Let rst := rst wo ro G D.
  Let instep := instep wo ro G D.

  Lemma w_same_entries s L sw s' L' sw' : wst s L sw -> wst s' L' sw' -> same_entries sw sw'.
  Proof. intros [_ W] [_ W'] p U. eapply shape_trans; [now apply W'|apply shape_sym; now apply W]. Qed.

  (** the control numbers written are those checked *)
  Lemma w_ctrl s L sw s' L' sw' cs c x : wst s L sw -> wst s' L' sw' -> ps_up sw' = ps_up sw ->
    check_spec_write cs sw = (Ok tt, x) -> the_ctrl sw' = Ok c ->
    check_spec cs (vint (MAT c)) (vint (MF c)) (vint (MT c)) = Ok tt /\ x = sw /\ the_ctrl sw = Ok c.
  Proof.
    intros W W' U H C. pose proof (w_same_entries _ _ _ _ _ _ W W') as SE. unfold the_ctrl in *. rewrite U in C.
    pose proof W as [S _].
    assert (X : forall k, ~ working_key k -> same_shape (dget k (ctrl_dic (ps_dic sw') (ps_up sw))) (dget k (ctrl_dic (ps_dic sw) (ps_up sw)))).
    { intros k Nk. apply (ctrl_shape G GG); [exact Nk|apply (so_open _ _ _ _ S)|apply (so_sec _ _ _ _ S)|].
      intros p Up. specialize (SE p Up). unfold look in SE. rewrite U in SE. exact SE. }
    apply get_ctrl_inv in C as (A1 & A2 & A3).
    assert (Y : forall k z, ~ working_key k -> dget k (ctrl_dic (ps_dic sw') (ps_up sw)) = Some (vint z) ->
      dget k (ctrl_dic (ps_dic sw) (ps_up sw)) = Some (vint z)).
    { intros k z Nk Hk. eapply shape_leaf; [apply X; exact Nk|exact Hk|]. intros [e Q]; discriminate. }
    apply Y in A1; [|intros [E|[E|E]]; discriminate]. apply Y in A2; [|intros [E|[E|E]]; discriminate].
    apply Y in A3; [|intros [E|[E|E]]; discriminate].
    unfold check_spec_write in H. rewrite A1, A2, A3 in H. injection H as -> <-.
    split; [reflexivity|]. split; [reflexivity|]. unfold get_ctrl. rewrite A1, A2, A3. destruct c. reflexivity.
  Qed.

  (** ** Steps of the reader *)

  Lemma shape_ext s L a b : shape_ok G s L a -> ps_loops b = ps_loops a -> ps_look b = ps_look a -> ps_up b = ps_up a ->
    shape_ok G s L b.
  Proof. intros [] E1 E2 E3. constructor; rewrite ?E1, ?E2, ?E3; assumption. Qed.
  Lemma wst_ext s L a b : wst s L a -> ps_loops b = ps_loops a -> ps_look b = ps_look a -> ps_up b = ps_up a ->
    ps_dic b = ps_dic a -> wst s L b.
  Proof.
    intros [S W] E1 E2 E3 E4. split; [eapply shape_ext; eauto|]. intros p U. unfold look. rewrite E3, E4. now apply W.
  Qed.
  Lemma rst_ext s L a b : rst s L a -> ps_loops b = ps_loops a -> ps_look b = ps_look a -> ps_up b = ps_up a ->
    ps_dic b = ps_dic a -> ps_opts b = ps_opts a -> rst s L b.
  Proof.
    intros (S & P & O) E1 E2 E3 E4 E5. split; [eapply shape_ext; eauto|]. rewrite E3, E4, E5. auto.
  Qed.
  Lemma grows_ext a b : ps_up b = ps_up a -> ps_dic b = ps_dic a -> grows a b.
  Proof. intros E1 E2 p v U H N. exists v. split; [|exact N]. unfold look. rewrite E1, E2. exact H. Qed.

  Lemma instep_to s L O T T' sw sw' sr sr' : instep s L O T sw sr -> rst s L sr' -> grows sr sr' ->
    ps_loops sr' = ps_loops sr -> ps_up sr' = ps_up sr -> ps_loops sw' = ps_loops sw -> ps_up sw' = ps_up sw ->
    toks sr' T' -> instep s L O T' sw' sr'.
  Proof.
    intros [R A Lv] R' Gr E1 E2 E3 E4 TK. constructor; [exact R'| |].
    - destruct A as [A1 A2]. split; congruence.
    - cbn [levels] in *. rewrite E2. destruct Lv as (X1 & _ & X2). split; [exact X1|]. split.
      + intros t I. specialize (TK t I). now rewrite E2 in TK.
      + destruct (ps_up sr); [exact X2|]. eapply levels_grows; eauto.
  Qed.
  Lemma instep_less s L O T T' sw sr : instep s L O T sw sr -> (forall t, In t T' -> In t T) -> instep s L O T' sw sr.
  Proof. intros [R A Lv] Sub. constructor; [exact R|exact A|]. cbn [levels] in *. destruct Lv as (E1 & E2 & E3). auto. Qed.
  Lemma instep_ext s L O T sw sw' sr sr' : instep s L O T sw sr -> 
    ps_loops sr' = ps_loops sr -> ps_look sr' = ps_look sr -> ps_up sr' = ps_up sr -> ps_dic sr' = ps_dic sr -> ps_opts sr' = ps_opts sr ->
    ps_loops sw' = ps_loops sw -> ps_up sw' = ps_up sw -> instep s L O T sw' sr'.
  Proof.
    intros I E1 E2 E3 E4 E5 E6 E7. eapply instep_to; [exact I| | | | | | |]; eauto.
    - eapply rst_ext; eauto. apply I.
    - now apply grows_ext.
    - eapply toks_grows; [apply grows_ext| | |eapply instep_toks; exact I]; eauto.
  Qed.

  (** the instruction of the writer and that of the reader belong together *)
  Definition sim (s L : list str) (O : list (list str * list extvar)) (T T' : list extvar) (mw mr : M unit) : Prop :=
    forall sw sw', wst s L sw -> mw sw = (Ok tt, sw') ->
      wst s L sw' /\ kept sw sw' /\ exists new, ps_lines sw' = ps_lines sw ++ new /\
      (full (w_width wo) new -> forall sr, instep s L O T sw sr -> at_lines new (ps_lines sr) (ps_ofs sr) ->
       exists sr', mr sr = (Ok tt, sr') /\ instep s L O T' sw' sr' /\ kept sr sr' /\ ps_lines sr' = ps_lines sr /\
         ps_ofs sr' = (ps_ofs sr + length new)%nat /\ grows sr sr' /\ third G D s L sw mw new sr').

  (** the same, and [P] holds of the reader's start *)
  Definition sim_with (P : pstate -> pstate -> Prop) (s L : list str) (O : list (list str * list extvar)) (T T' : list extvar) (mw mr : M unit) : Prop :=
    forall sw sw', wst s L sw -> mw sw = (Ok tt, sw') ->
      wst s L sw' /\ kept sw sw' /\ exists new, ps_lines sw' = ps_lines sw ++ new /\
      (full (w_width wo) new -> forall sr, instep s L O T sw sr -> at_lines new (ps_lines sr) (ps_ofs sr) ->
       P sw sr /\
       exists sr', mr sr = (Ok tt, sr') /\ instep s L O T' sw' sr' /\ kept sr sr' /\ ps_lines sr' = ps_lines sr /\
         ps_ofs sr' = (ps_ofs sr + length new)%nat /\ grows sr sr' /\ third G D s L sw mw new sr').
  Lemma sim_of_with P s L O T T' mw mr : sim_with P s L O T T' mw mr -> sim s L O T T' mw mr.
  Proof.
    intros S sw sw' W H. destruct (S sw sw' W H) as (W' & K & new & En & R). split; [exact W'|]. split; [exact K|]. exists new. split; [exact En|].
    intros F sr I A. apply (R F sr I A).
  Qed.

  (** the first line of a record: six fields, of TAB1 four *)
  Definition header (t : rtype) : M (list val * ctrl) :=
    match t with
    | RCont _ => run (r, c) <- read_with (read_cont ro); ret (cont_vals r, c)
    | RTab1 => run (r, c, _) <- read_with (read_tab1 ro); ret (firstn 4 (cont_vals r), c)
    | RList => run (r, c, _) <- read_with (read_list ro); ret (cont_vals r, c)
    end.
  (** the next line has the fields of the record [p] as the writer evaluates them *)
  Definition starts (p : first) (sw sr : pstate) : Prop :=
    exists vs vals c o, mapM (eval_known depth (scope_of sw) false false) (map snd (fs_slots p)) = Ok vs /\
      Forall3 (printed wo ro) (map fst (fs_slots p)) vs vals /\
      header (fs_type p) sr = (Ok (vals, c), advance (ps_ofs sr) o sr) /\
      check_spec (fs_spec p) (vint (MAT c)) (vint (MF c)) (vint (MT c)) = Ok tt.

  Lemma sim_ret s L O T : sim s L O T T (ret tt) (ret tt).
  Proof.
    intros sw sw' W H. injection H as <-. split; [exact W|]. split; [apply kept_refl|]. exists []. split; [now rewrite app_nil_r|].
    intros _ sr I _. exists sr. split; [reflexivity|]. split; [exact I|]. split; [apply kept_refl|]. split; [reflexivity|].
    split; [cbn [length]; lia|]. split; [apply grows_refl|]. intros E sE _ _ WE _. exists sE. split; [reflexivity|]. split; [exact WE|].
    split; [apply kept_refl|now rewrite app_nil_r].
  Qed.
  Lemma sim_seq s L O T1 T2 T3 a b a' b' : sim s L O T1 T2 a a' -> sim s L O T2 T3 b b' ->
    sim s L O T1 T3 (run _ <- a; b) (run _ <- a'; b').
  Proof.
    intros S1 S2 sw sw' W H. apply mbind_ok in H as (x & sw1 & Ha & Hb). destruct x.
    destruct (S1 _ _ W Ha) as (W1 & K1 & n1 & E1 & R1). destruct (S2 _ _ W1 Hb) as (W2 & K2 & n2 & E2 & R2).
    split; [exact W2|]. split; [eapply kept_trans; eauto|]. exists (n1 ++ n2). split; [now rewrite E2, E1, app_assoc|].
    intros F sr I A. apply Forall_app in F as [F1 F2]. apply at_lines_app in A as [A1 A2].
    destruct (R1 F1 sr I A1) as (sr1 & H1 & I1 & Kr1 & El1 & Eo1 & G1 & Th1).
    destruct (R2 F2 sr1 I1) as (sr2 & H2 & I2 & Kr2 & El2 & Eo2 & G2 & Th2); [now rewrite El1, Eo1|].
    exists sr2. split; [unfold mbind; now rewrite H1|]. split; [exact I2|]. split; [eapply kept_trans; eauto|].
    split; [congruence|]. split; [rewrite Eo2, Eo1, app_length; lia|]. split; [eapply grows_trans; eauto|].
    intros E sE DE Ho WE AE. destruct (Th1 E sE DE (holds_grows _ _ _ G2 Ho) WE AE) as (sa & Ha' & Wa & Ka & La).
    destruct (Th2 E sa DE Ho Wa (aligned_kept _ _ _ _ AE K1 Ka)) as (sb & Hb' & Wb & Kb & Lb).
    exists sb. split; [unfold mbind; now rewrite Ha'|]. split; [exact Wb|]. split; [eapply kept_trans; eauto|]. now rewrite Lb, La, app_assoc.
  Qed.

  (** the fields of a record *)
  Lemma typed_vals l vs : Forall2 typed l vs -> forall k, In k l -> k <> TextV /\ k <> SecV.
  Proof. induction 1 as [|k v l vs T F IH]; intros k' I; [destruct I|]. destruct I as [<-|I]; [|now apply IH]. destruct k; cbn in T; split; congruence || contradiction. Qed.

  Lemma fields_step s L O T T' sw sw' sr l vs vs' : wst s L sw -> slots G s L T l = Some T' ->
    mapM (eval_known depth (scope_of sw) false false) (map snd l) = Ok vs ->
    Forall2 typed (map fst l) vs -> Forall3 (printed wo ro) (map fst l) vs vs' ->
    instep s L O T sw sr -> ps_loops sw' = ps_loops sw -> ps_up sw' = ps_up sw ->
    exists d', map_read ER (combine vs' (map snd l)) sr = (Ok tt, set_dic d' sr) /\
      instep s L O T' sw' (set_dic d' sr) /\ kept sr (set_dic d' sr) /\ grows sr (set_dic d' sr).
  Proof.
    intros W Sl Ev Ty Pr I E1 E2.
    destruct (slots_read wo ro depth G GG D CD ZO _ _ _ _ _ _ _ _ _ W Sl Ev Ty Pr (is_rst _ _ _ _ _ _ _ _ _ _ I) (is_al _ _ _ _ _ _ _ _ _ _ I)
      (instep_toks _ _ _ _ _ _ _ _ _ _ I)) as (d' & H & R & Gr & TK & Ab).
    exists d'. split; [exact H|]. split; [eapply instep_to; eauto|]. split; [|exact Gr].
    constructor; try reflexivity. exact Ab.
  Qed.

  Lemma map_write_vals es sw vs sw' : map_write EW es sw = (Ok vs, sw') ->
    mapM (eval_known depth (scope_of sw) false false) es = Ok vs.
  Proof. intros H. exact (f_equal fst H). Qed.

  (** ** CONT, HEAD *)

  Lemma cont_of_inv vs r : cont_of vs = Ok r ->
    vs = [VNum (C1 r); VNum (C2 r); VNum (L1 r); VNum (L2 r); VNum (N1 r); VNum (N2 r)].
  Proof.
    destruct vs as [|a [|b [|c [|d [|e [|f [|g vs]]]]]]]; try discriminate. cbn [cont_of]. intros H.
    binv H x1. binv H x2. binv H x3. binv H x4. binv H x5. binv H x6. injection H as <-. cbn [C1 C2 L1 L2 N1 N2].
    apply as_num_inv in E, E0, E1, E2, E3, E4. now subst.
  Qed.

  Lemma printed_int v v' : printed wo ro IntV v v' -> exists z, v = vint z /\ v' = vint z.
  Proof. now apply printed_ofint. Qed.
  Lemma printed_flt v v' : printed wo ro FltV v v' -> exists n w, v = VNum n /\ v' = VNum w /\ reads_as wo ro n w.
  Proof. intros H; inversion H; subst; try discriminate; eauto. Qed.

  Lemma update_step O T c sw sw' sr L : instep [] L O T sw sr -> wst [] L sw -> the_ctrl sw = Ok c ->
    ps_loops sw' = ps_loops sw -> ps_up sw' = ps_up sw ->
    exists sr', update_ctrl c sr = (Ok tt, sr') /\ instep [] L O (ctrl_vars ++ T) sw' sr' /\ kept sr sr' /\
      ps_lines sr' = ps_lines sr /\ ps_ofs sr' = ps_ofs sr /\ grows sr sr'.
  Proof.
    intros I W C E1 E2. pose proof W as [S Wd]. pose proof GG as (_ & GM & GF & GT).
    assert (U : ps_up sw = []).
    { pose proof (so_names _ _ _ _ S) as X. destruct (ps_up sw); [reflexivity|discriminate]. }
    assert (Ur : ps_up sr = []).
    { pose proof (so_names _ _ _ _ (proj1 (is_rst _ _ _ _ _ _ _ _ _ _ I))) as X. destruct (ps_up sr); [reflexivity|discriminate]. }
    unfold the_ctrl in C. apply get_ctrl_inv in C as (A1 & A2 & A3). rewrite U in A1, A2, A3.
    assert (Cd : ctrl_dic (ps_dic sw) [] = ps_dic sw) by (rewrite ctrl_dic_eq; destruct (dget (KStr $"MAT") (ps_dic sw)); reflexivity).
    rewrite Cd in A1, A2, A3.
    assert (HD : forall x z, ~ internal x -> dget (KStr x) (ps_dic sw) = Some (vint z) -> path_get [KStr x] (VDict D) = Some (vint z)).
    { intros x z N H. eapply shape_leaf; [apply Wd; apply (user_str x [] N)| |intros [e Q]; discriminate].
      unfold look. rewrite U. cbn [root]. now rewrite path_one. }
    (* one entry *)
    assert (One : forall x z st, G [] x = Some IntV -> path_get [KStr x] (VDict D) = Some (vint z) -> ps_up st = [] -> rst [] L st ->
      rst [] L (set_dic (dset (KStr x) (vint z) (ps_dic st)) st) /\ grows st (set_dic (dset (KStr x) (vint z) (ps_dic st)) st) /\
      abbr_same (ps_dic st) (dset (KStr x) (vint z) (ps_dic st))).
    { intros x z st K H Us R.
      destruct (store_ok wo ro G D [] L st x [] IntV (vint z) (vint z) (dset (KStr x) (vint z) (ps_dic st)) R K) as (Q1 & Q2 & _).
      - unfold at_path. rewrite Us. exact H.
      - now constructor.
      - apply dset_stored.
      - split; [exact Q1|]. split; [exact Q2|]. eapply stored_abbr; [apply dset_stored|]. eapply schema_user; [exact GG|exact K]. }
    assert (NM : ~ internal $"MAT") by (eapply schema_user; eauto). assert (NF : ~ internal $"MF") by (eapply schema_user; eauto).
    assert (NT : ~ internal $"MT") by (eapply schema_user; eauto).
    destruct (One $"MAT" (MAT c) sr GM (HD _ _ NM A1) Ur (is_rst _ _ _ _ _ _ _ _ _ _ I)) as (R1 & G1 & B1).
    set (s1 := set_dic _ sr) in *.
    destruct (One $"MF" (MF c) s1 GF (HD _ _ NF A2) Ur R1) as (R2 & G2 & B2). set (s2 := set_dic _ s1) in *.
    destruct (One $"MT" (MT c) s2 GT (HD _ _ NT A3) Ur R2) as (R3 & G3 & B3). set (s3 := set_dic _ s2) in *.
    exists s3. split; [reflexivity|]. assert (Gr : grows sr s3) by (eapply grows_trans; [exact G1|]; eapply grows_trans; eauto).
    split; [|split; [|split; [reflexivity|split; [reflexivity|exact Gr]]]].
    - eapply instep_to; eauto. intros t It. apply in_app_or in It as [It|It].
      + assert (Tk : forall x z, ~ internal x -> dget (KStr x) (ps_dic s3) = Some (vint z) -> tok_at s3 (pre (ps_up s3)) (x, [])).
        { intros x z N Hx. exists [], (vint z). split; [reflexivity|]. replace (pre (ps_up s3)) with (@nil key) by (change (ps_up s3) with (ps_up sr); now rewrite Ur).
          split; [apply (user_str x [] N)|]. split; [|intros [e Q]; discriminate]. unfold look. change (ps_up s3) with (ps_up sr). rewrite Ur.
          cbn [root app map fst]. now rewrite path_one. }
        destruct It as [<-|[<-|[<-|[]]]].
        * apply (Tk _ (MAT c) NM). unfold s3, s2, s1. cbn [set_dic ps_dic]. rewrite !dget_dset_other by discriminate. apply dget_dset_same.
        * apply (Tk _ (MF c) NF). unfold s3, s2, s1. cbn [set_dic ps_dic]. rewrite dget_dset_other by discriminate. apply dget_dset_same.
        * apply (Tk _ (MT c) NT). unfold s3, s2, s1. cbn [set_dic ps_dic]. apply dget_dset_same.
      + eapply toks_grows; [exact Gr| | |eapply instep_toks; exact I|exact It]; reflexivity.
    - constructor; try reflexivity. eapply abbr_trans; [exact B1|]. eapply abbr_trans; eauto.
  Qed.

  Lemma w_added s L sw ls : wst s L sw -> wst s L (add_lines ls sw) /\ kept sw (add_lines ls sw).
  Proof. intros W. split; [eapply wst_ext; eauto|]. constructor; try reflexivity. apply abbr_refl. Qed.

  Lemma sim_cont_with s L O T T' head cs f : readable G (6 * w_width wo) s L O T (ICont head cs f) = Some T' ->
    sim_with (starts {| fs_type := RCont head; fs_spec := cs; fs_slots := cont_slots f |}) s L O T T' (do_cont EW head cs f) (do_cont ER head cs f).
  Proof.
    cbn [readable]. intros Rd. destruct (negb head || at_top s) eqn:Hd; [|discriminate].
    destruct (slots G s L T (cont_slots f)) as [T0|] eqn:Sl; [|discriminate]. injection Rd as <-. rename Sl into Rd.
    intros sw sw' W H. unfold do_cont in H. cbn [EW write_env e_write] in H. fold EW in H.
    apply mbind_ok in H as (x & sw1 & H1 & H). destruct x. apply mbind_ok in H as (vs & sw2 & H2 & H).
    unfold write_with in H. cbv beta in H. destruct (do c <- the_ctrl sw2; _) as [ls|] eqn:E; [|discriminate]. injection H as <-.
    pose proof (spec_write_state _ _ _ _ H1) as X. subst sw1.
    pose proof (map_write_state _ _ _ _ _ H2) as X. subst sw2.
    binv E c. binv E r. cbn [EW write_env e_wo] in E.
    destruct (w_ctrl _ _ _ _ _ _ _ _ _ W W eq_refl H1 E0) as (CS & _ & _).
    destruct (w_added _ _ _ ls W) as [W' K]. split; [exact W'|]. split; [exact K|].
    exists ls. split; [reflexivity|]. intros F sr I A.
    pose proof (map_write_vals _ _ _ _ H2) as Ev.
    pose proof (cont_of_inv _ _ E1) as Evs.
    assert (Ty : Forall2 typed (map fst (cont_slots f)) vs) by (rewrite Evs; tys).
    destruct (slots_image wo ro depth G GG D CD ZO _ _ _ W _ _ _ _ Rd Ev Ty) as (vs' & Pr).
    pose proof Pr as Pr'. rewrite Evs in Pr'. cbn [cont_slots map fst] in Pr'.
    inversion Pr' as [|? ? ? ? v1 ? P1 Pa]; subst. inversion Pa as [|? ? ? ? v2 ? P2 Pb]; subst.
    inversion Pb as [|? ? ? ? v3 ? P3 Pc]; subst. inversion Pc as [|? ? ? ? v4 ? P4 Pd]; subst.
    inversion Pd as [|? ? ? ? v5 ? P5 Pe]; subst. inversion Pe as [|? ? ? ? v6 ? P6 Pf]; subst. inversion Pf; subst.
    apply printed_flt in P1 as (? & a & X1 & -> & Ra), P2 as (? & b & X2 & -> & Rb). injection X1 as <-. injection X2 as <-.
    apply printed_int in P3 as (l1 & X3 & ->), P4 as (l2 & X4 & ->), P5 as (n1 & X5 & ->), P6 as (n2 & X6 & ->).
    injection X3 as X3. injection X4 as X4. injection X5 as X5. injection X6 as X6.
    destruct (cont_full wo ro r c ls a b l1 l2 n1 n2 SW E F (proj1 Ra) (proj1 Rb) X3 X4 X5 X6) as (CR & CF & l & -> & HC).
    set (r' := {| C1 := a; C2 := b; L1 := NInt l1; L2 := NInt l2; N1 := NInt n1; N2 := NInt n2 |}) in *.
    destruct (cont_roundtrip ro wo r r' c SW CR CF) as (l' & El' & _ & Rt). rewrite E in El'. injection El' as <-.
    pose proof (read_step (read_cont ro) sr l [] c _ _ HC A (Rt _ _ A)) as Rs.
    set (sr1 := advance (ps_ofs sr) (S (ps_ofs sr)) sr) in *.
    split.
    { do 4 eexists. split; [exact Ev|]. split; [exact Pr|]. split; [|exact CS]. cbn [header fs_type]. unfold mbind. rewrite Rs. reflexivity. }
    assert (I1 : instep s L O T sw sr1) by (eapply instep_ext; eauto).
    assert (Kr : kept sr sr1) by (constructor; try reflexivity; apply abbr_refl).
    destruct (fields_step _ _ _ _ _ _ (add_lines [l] sw) _ _ _ _ W Rd Ev Ty Pr I1 eq_refl eq_refl) as (d' & Hm & I2 & K2 & G2).
    unfold do_cont. cbn [ER read_env e_write e_ro]. fold ER. unfold mbind at 1. rewrite Rs.
    unfold mbind at 1. unfold check_spec_read, lift. rewrite CS.
    unfold mbind at 1.
    assert (Em : map_read ER (combine (cont_vals r') (fields_list f)) sr1 = (Ok tt, set_dic d' sr1)) by exact Hm.
    assert (Th : third G D s L sw (do_cont EW head cs f) [l] (set_dic d' sr1)).
    { intros Ed sE DE Ho WE AE. eapply third_lines; [exact WE|].
      unfold do_cont. cbn [EW write_env e_write]. fold EW. unfold mbind at 1.
      rewrite (third_check G GG D Ed DE _ _ _ _ _ _ _ W WE AE E0 H1). unfold mbind at 1.
      assert (Ef : map_write EW (fields_list f) sE = (fst (map_write EW (fields_list f) sw), sE)).
      { exact (third_fields wo ro blank depth G GG D CD Ed DE _ _ _ _ _ W WE AE (is_rst _ _ _ _ _ _ _ _ _ _ I2) (is_al _ _ _ _ _ _ _ _ _ _ I2) Ho
          (cont_slots f) _ _ (instep_toks _ _ _ _ _ _ _ _ _ _ I2) Rd). }
      rewrite Ef, H2. cbn [fst]. unfold write_with. rewrite (third_ctrl G GG D Ed DE _ _ _ _ _ W WE AE E0). cbn [bind]. rewrite E1. cbn [bind].
      cbn [EW write_env e_wo]. rewrite E. reflexivity. }
    rewrite Em. destruct head.
    - destruct s; [|discriminate].
      destruct (w_ctrl _ _ _ _ _ _ _ _ _ W W eq_refl H1 E0) as (_ & _ & Cw).
      destruct (update_step _ _ c _ (add_lines [l] sw) _ _ I2 (proj1 (w_added _ _ _ [l] W)) Cw eq_refl eq_refl) as (sr3 & U1 & U2 & U3 & U4 & U5 & U6).
      exists sr3. split; [exact U1|]. split; [exact U2|]. split; [eapply kept_trans; [exact Kr|eapply kept_trans; eauto]|].
      split; [now rewrite U4|]. split; [rewrite U5; cbn; lia|]. split; [|eapply third_grows; [exact U6|exact Th]].
      eapply grows_trans; [|exact U6]. eapply grows_trans; [|exact G2]. now apply grows_ext.
    - exists (set_dic d' sr1). split; [reflexivity|]. split; [exact I2|]. split; [eapply kept_trans; eauto|].
      split; [reflexivity|]. split; [cbn; lia|]. split; [|exact Th]. eapply grows_trans; [|exact G2]. now apply grows_ext.
  Qed.

  Lemma sim_cont s L O T T' head cs f : readable G (6 * w_width wo) s L O T (ICont head cs f) = Some T' ->
    sim s L O T T' (do_cont EW head cs f) (do_cont ER head cs f).
  Proof. intros Rd. exact (sim_of_with _ _ _ _ _ _ _ _ (sim_cont_with _ _ _ _ _ _ _ _ Rd)). Qed.

  (** ** DIR *)

  Lemma sim_dir s L O T T' cs l1 l2 n1 n2 : readable G (6 * w_width wo) s L O T (IDir cs l1 l2 n1 n2) = Some T' ->
    sim s L O T T' (do_dir EW cs [l1; l2; n1; n2]) (do_dir ER cs [l1; l2; n1; n2]).
  Proof.
    cbn [readable]. intros Rd sw sw' W H. unfold do_dir in H. cbn [EW write_env e_write] in H. fold EW in H.
    apply mbind_ok in H as (x & sw1 & H1 & H). destruct x. apply mbind_ok in H as (vs & sw2 & H2 & H).
    unfold write_with in H. cbv beta in H. destruct (do c <- the_ctrl sw2; _) as [ls|] eqn:E; [|discriminate]. injection H as <-.
    pose proof (spec_write_state _ _ _ _ H1) as X. subst sw1.
    pose proof (map_write_state _ _ _ _ _ H2) as X. subst sw2.
    binv E c. binv E zs. cbn [EW write_env e_wo] in E.
    destruct (w_ctrl _ _ _ _ _ _ _ _ _ W W eq_refl H1 E0) as (CS & _ & _).
    destruct (w_added _ _ _ ls W) as [W' K]. split; [exact W'|]. split; [exact K|].
    exists ls. split; [reflexivity|]. intros F sr I A.
    destruct zs as [|a [|b [|c' [|d [|]]]]]; try discriminate. injection E as <-.
    pose proof (map_write_vals _ _ _ _ H2) as Ev.
    assert (Evs : vs = [vint a; vint b; vint c'; vint d]).
    { exact (as_Z_list _ _ E1). }
    set (ll := [(IntV, l1); (IntV, l2); (IntV, n1); (IntV, n2)]) in *.
    assert (Ty : Forall2 typed (map fst ll) vs) by (rewrite Evs; tys).
    destruct (slots_image wo ro depth G GG D CD ZO _ _ _ W ll _ _ _ Rd Ev Ty) as (vs' & Pr).
    assert (vs' = vs) as ->.
    { clear -Pr Evs. rewrite Evs in *. cbn [ll map fst] in Pr.
      inversion Pr as [|? ? ? ? v1 ? P1 Pa]; subst. inversion Pa as [|? ? ? ? v2 ? P2 Pb]; subst.
      inversion Pb as [|? ? ? ? v3 ? P3 Pc]; subst. inversion Pc as [|? ? ? ? v4 ? P4 Pd]; subst. inversion Pd; subst.
      apply printed_int in P1 as (? & X1 & ->), P2 as (? & X2 & ->), P3 as (? & X3 & ->), P4 as (? & X4 & ->).
      now rewrite X1, X2, X3, X4. }
    set (r := {| D_L1 := a; D_L2 := b; D_N1 := c'; D_N2 := d |}) in *.
    assert (Fl : length (spaces (w_width wo) ++ spaces (w_width wo) ++ int_field (w_width wo) a ++ int_field (w_width wo) b ++
       int_field (w_width wo) c' ++ int_field (w_width wo) d ++ write_ctrl c) = (6 * w_width wo + 9)%nat) by (inversion F; assumption).
    rewrite !app_length, !length_spaces in Fl.
    pose proof (int_field_ge (w_width wo) a). pose proof (int_field_ge (w_width wo) b).
    pose proof (int_field_ge (w_width wo) c'). pose proof (int_field_ge (w_width wo) d). pose proof (length_write_ctrl_ge c).
    destruct (dir_roundtrip ro wo r c SW) as (l & El & _ & Rt); try (apply int_field_eq; [apply SW|cbn [r D_L1 D_L2 D_N1 D_N2]; lia]).
    { apply length_write_ctrl_iff. lia. }
    rewrite El in *.
    assert (HC : has_ctrl c l).
    { unfold write_dir in El. injection El as <-. rewrite !app_assoc. eexists. reflexivity. }
    pose proof (read_step (read_dir ro) sr l [] c _ _ HC A (Rt _ _ A)) as Rs.
    set (sr1 := advance (ps_ofs sr) (S (ps_ofs sr)) sr) in *.
    assert (I1 : instep s L O T sw sr1) by (eapply instep_ext; eauto).
    assert (Kr : kept sr sr1) by (constructor; try reflexivity; apply abbr_refl).
    destruct (fields_step _ _ _ _ _ _ (add_lines [l] sw) _ ll _ _ W Rd Ev Ty Pr I1 eq_refl eq_refl) as (d' & Hm & I2 & K2 & G2).
    exists (set_dic d' sr1). split; [|split; [exact I2|split; [eapply kept_trans; eauto|split; [reflexivity|split; [cbn; lia|split]]]]].
    - unfold do_dir. cbn [ER read_env e_write e_ro]. fold ER. unfold mbind at 1. rewrite Rs.
      unfold mbind at 1. unfold check_spec_read, lift. rewrite CS. rewrite Evs in Hm. exact Hm.
    - eapply grows_trans; [|exact G2]. now apply grows_ext.
    - intros Ed sE DE Ho WE AE. eapply third_lines; [exact WE|].
      unfold do_dir. cbn [EW write_env e_write]. fold EW. unfold mbind at 1.
      rewrite (third_check G GG D Ed DE _ _ _ _ _ _ _ W WE AE E0 H1). unfold mbind at 1.
      assert (Ef : map_write EW [l1; l2; n1; n2] sE = (Ok vs, sE)).
      { eapply eq_trans; [exact (third_fields wo ro blank depth G GG D CD Ed DE _ _ _ _ _ W WE AE (is_rst _ _ _ _ _ _ _ _ _ _ I2) (is_al _ _ _ _ _ _ _ _ _ _ I2) Ho
          ll _ _ (instep_toks _ _ _ _ _ _ _ _ _ _ I2) Rd)|]. f_equal. exact (f_equal fst H2). }
      rewrite Ef. unfold write_with. rewrite (third_ctrl G GG D Ed DE _ _ _ _ _ W WE AE E0). cbn [bind]. rewrite E1. cbn [bind].
      cbn [EW write_env e_wo]. rewrite <- El. reflexivity.
  Qed.
End Records.
