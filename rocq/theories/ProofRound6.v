(** C31: tables, texts, and what is stored in a section of its own. *)
From Coq Require Import Ascii String ZArith Bool Lia List.
From Coq Require Import Floats.SpecFloat.
From Verif Require Import PyBase PyFloat ModelFortran ModelRecords ModelNum ModelRecipe ModelInterp.
From Verif Require Import SpecFields SpecInterp SpecRound ProofPyBase ProofFields ProofRecords.
From Verif Require Import ProofInterp ProofInterpFrame ProofInterpCtl ProofInterpSec ProofInterpMap ProofInterpWrite.
From Verif Require Import ProofRound1 ProofRound2 ProofRound3 ProofRound4 ProofThird ProofRound5.
Import ListNotations.
Open Scope Z_scope.

(** what is left as it is inside a section *)
Definition kept_in (name : option extvar) (a b : pstate) : Prop :=
  ps_up b = ps_up a /\ ps_loops b = ps_loops a /\ ps_look b = ps_look a /\ ps_opts b = ps_opts a /\
  (name = None -> abbr_same (ps_dic a) (ps_dic b)).
Lemma kept_kept_in name a b : kept a b -> kept_in name a b.
Proof. intros []. repeat split; auto. Qed.

Definition sub_s (name : option extvar) (s : list str) : list str := match name with Some u => fst u :: s | None => s end.
Definition sub_O (name : option extvar) (s : list str) (T : list extvar) (O : list (list str * list extvar)) :=
  match name with Some _ => (s, T) :: O | None => O end.
Definition sub_T (name : option extvar) (T : list extvar) : list extvar := match name with Some _ => [] | None => T end.
Definition out_T (name : option extvar) (T T1 : list extvar) : list extvar := match name with Some _ => T | None => T1 end.
Definition name_ok (G : schema) (s L : list str) (name : option extvar) : Prop :=
  match name with Some u => section_var G s L u = true | None => True end.

Lemma named_inv G s L T name f T' : named G s L T name f = Some T' ->
  name_ok G s L name /\ exists T1, f (sub_s name s) (sub_T name T) = Some T1 /\ T' = out_T name T T1.
Proof.
  unfold named, name_ok, sub_s, sub_T, out_T. destruct name as [u|]; [|intros ->; eauto].
  destruct (section_var G s L u); [|discriminate]. destruct (f (fst u :: s) []); [|discriminate]. intros H. injection H as <-. eauto.
Qed.

Lemma small_zero w : (1 <= w)%nat -> in_field w 0.
Proof.
  intros W. unfold in_field. pose proof (Z.pow_pos_nonneg 10 (Z.of_nat w - 1)). pose proof (Z.pow_pos_nonneg 10 (Z.of_nat w)). lia.
Qed.

Lemma slice_mid {A} (a b c : list A) : slice (length a) (length a + length b) (a ++ b ++ c) = b.
Proof.
  unfold slice. replace (length a + length b - length a)%nat with (length b) by lia.
  rewrite skipn_app, skipn_all, Nat.sub_diag. cbn [app skipn]. rewrite firstn_app, firstn_all, Nat.sub_diag. cbn [firstn]. apply app_nil_r.
Qed.

Lemma mapM_two {A B} (f : A -> result B) a b l x y r : mapM f (a :: b :: l) = Ok (x :: y :: r) -> f a = Ok x /\ f b = Ok y.
Proof.
  intros H. cbn [mapM] in H. binv H p. binv H q. injection H as -> ->. binv E0 u. binv E0 v. injection E0 as -> _. auto.
Qed.

Section Tables.
  Variable wo : wopts.
  Variable ro : ropts.
  Variable blank : bool.
  Variable depth : nat.
  Variable G : schema.
  Hypothesis GG : good_schema G.
  Variable D : dict.
  Hypothesis CD : conforms wo ro G D.
  Hypothesis ZO : zeros_ok wo ro.
  Hypothesis SW : same_width wo ro.

  Let EW := write_env ro wo blank depth.
  Let ER := read_env ro wo depth.
  Let wst := wst G D.
  Let rst := rst wo ro G D.
  Let instep := instep wo ro G D.
  Let sim := sim wo ro G D.

  (** the writer with the dictionary [E] in the section *)
  Definition third_in {A} (s L : list str) (name : option extvar) (m : M A) (sw sw1 : pstate) : Prop :=
    forall E sE, drops D E -> ProofRound2.wst G E s L sE -> aligned sw sE ->
    exists sE1, ProofRound2.wst G E (sub_s name s) L sE1 /\ aligned sw1 sE1 /\ ps_lines sE1 = ps_lines sE /\
      forall a sE1', m sE1 = (Ok a, sE1') -> ProofRound2.wst G E (sub_s name s) L sE1' -> kept_in name sE1 sE1' ->
      exists sE2, in_section EW name m sE = (Ok a, sE2) /\ ProofRound2.wst G E s L sE2 /\ kept sE sE2 /\ ps_lines sE2 = ps_lines sE1'.

  Lemma in_sec {A} s L name (m : M A) sw a sw2 : wst s L sw -> name_ok G s L name ->
    in_section EW name m sw = (Ok a, sw2) ->
    exists sw1 sw1', wst (sub_s name s) L sw1 /\ ps_lines sw1 = ps_lines sw /\ m sw1 = (Ok a, sw1') /\ third_in s L name m sw sw1 /\
      (wst (sub_s name s) L sw1' -> kept_in name sw1 sw1' ->
       wst s L sw2 /\ kept sw sw2 /\ ps_lines sw2 = ps_lines sw1' /\
       forall O T sr, instep s L O T sw sr ->
         exists sr1, instep (sub_s name s) L (sub_O name s T O) (sub_T name T) sw1 sr1 /\
           ps_lines sr1 = ps_lines sr /\ ps_ofs sr1 = ps_ofs sr /\
           forall B (mr : M B) b T1 sr1', mr sr1 = (Ok b, sr1') ->
             instep (sub_s name s) L (sub_O name s T O) T1 sw1' sr1' -> kept_in name sr1 sr1' -> grows sr1 sr1' ->
             exists sr2, in_section ER name mr sr = (Ok b, sr2) /\ instep s L O (out_T name T T1) sw2 sr2 /\ kept sr sr2 /\
               ps_lines sr2 = ps_lines sr1' /\ ps_ofs sr2 = ps_ofs sr1' /\ grows sr sr2 /\ grows sr1' sr2).
  Proof.
    intros W N H. destruct name as [u|]; cbn [sub_s sub_O sub_T out_T name_ok in_section] in *.
    2: { exists sw, sw2. split; [exact W|]. split; [reflexivity|]. split; [exact H|]. split.
         { intros E sE DE WE AE. exists sE. split; [exact WE|]. split; [exact AE|]. split; [reflexivity|]. intros b sE1' Hb WE' (Q1 & Q2 & Q3 & Q4 & Q5).
           exists sE1'. split; [exact Hb|]. split; [exact WE'|]. split; [constructor; auto|reflexivity]. }
         intros W2 (K1 & K2 & K3 & K4 & K5).
         split; [exact W2|]. split; [constructor; auto|]. split; [reflexivity|]. intros O T sr I. exists sr. split; [exact I|].
         split; [reflexivity|]. split; [reflexivity|]. intros B mr b T1 sr1' Hm I1 (Kr1 & Kr2 & Kr3 & Kr4 & Kr5) Gr.
         exists sr1'. split; [exact Hm|]. split; [exact I1|]. split; [constructor; auto|]. auto using grows_refl. }
    apply mbind_ok in H as (x & sw1 & Ho & H). destruct x. apply mbind_ok in H as (a0 & sw1' & Hm & H).
    apply mbind_ok in H as (x & sw2' & Hc & H). destruct x. injection H as -> ->.
    destruct (w_open wo ro blank depth G GG D _ _ _ _ _ W N Ho) as (W1 & El & Eo & Elp & Elk & Eop & f & idcs & e & Eu & En & Ex & Ei & Eab & Ed).
    exists sw1, sw1'. split; [exact W1|]. split; [exact El|]. split; [exact Hm|]. split.
    { intros E sE DE WE AE. destruct (third_open wo ro blank depth G GG D E DE _ _ _ _ _ _ W WE AE N Ho) as (sE1 & HoE & WE1 & AE1).
      fold EW in HoE.
      destruct (w_open wo ro blank depth G GG E _ _ _ _ _ WE N HoE) as (_ & EEl & _ & EElp & EElk & EEop & fE & idE & eE & EEu & EEn & EEx & _ & EEab & _).
      exists sE1. split; [exact WE1|]. split; [exact AE1|]. split; [exact EEl|]. intros b sE1' Hb WE' (Q1 & Q2 & Q3 & Q4 & _).
      assert (EEu' : ps_up sE1' = fE :: ps_up sE) by congruence.
      pose proof (w_close G GG E s L sE1' fE (ps_up sE) (fst u) WE' EEu') as Q. cbv zeta in Q. destruct Q as (C1 & C2 & C3).
      eexists. split; [|split; [exact C2|split; [|reflexivity]]].
      - cbn [in_section]. unfold mbind at 1. rewrite HoE. unfold mbind at 1. rewrite Hb. unfold mbind at 1. rewrite C1. reflexivity.
      - constructor; cbn [set_up ps_up ps_loops ps_look ps_opts]; try congruence. left. rewrite <- EEab. apply C3.
        rewrite EEn. apply (section_ok G s L sw u (proj1 W) N). }
    intros W1' (K1 & K2 & K3 & K4 & _). assert (Eu' : ps_up sw1' = f :: ps_up sw) by congruence.
    pose proof (w_close G GG D s L sw1' f (ps_up sw) (fst u) W1' Eu') as Q. cbv zeta in Q. destruct Q as (Q1 & Q2 & Q3).
    rewrite Q1 in Hc. injection Hc as <-.
    assert (K : G s (fst u) = Some SecV).
    { apply (section_ok G s L sw u (proj1 W) N). }
    split; [exact Q2|]. split; [|split; [reflexivity|]].
    - constructor; cbn [set_up ps_up ps_loops ps_look ps_opts]; try congruence. left. rewrite <- Eab. apply Q3. now rewrite En.
    - intros O T sr I. subst idcs.
      destruct (r_open wo ro depth G GG D _ _ _ _ _ _ _ _ _ _ I N Eu En Elp Ei Ed) as (sr1 & fr & Hor & I1 & Gr1 & R1 & R2 & R3 & R4 & R5 & R6 & R7 & R8).
      exists sr1. split; [exact I1|]. split; [exact R1|]. split; [exact R2|].
      intros B mr b T1 sr1' Hmr I1' (Kr1 & Kr2 & Kr3 & Kr4 & _) Gr. assert (Eur : ps_up sr1' = fr :: ps_up sr) by congruence.
      pose proof (r_close wo ro G GG D s L O T T1 sw1' (set_up (ps_up sw) (outer f (ddel (KStr $"__up") (ps_dic sw1'))) sw1') sr1' fr (ps_up sr) f (ps_up sw) (fst u)
        I1' Eur Eu' eq_refl eq_refl) as Q. cbv zeta in Q. destruct Q as (C1 & C2 & C3 & C4).
      eexists. split; [|split; [exact C2|split; [|split; [reflexivity|split; [reflexivity|split; [|exact C3]]]]]].
      + unfold mbind at 1. fold ER in Hor. rewrite Hor. unfold mbind at 1. rewrite Hmr. unfold mbind at 1. rewrite C1. reflexivity.
      + constructor; cbn [set_up ps_up ps_loops ps_look ps_opts]; try congruence. left. rewrite <- R8. apply C4. now rewrite R7.
      + eapply grows_trans; [exact Gr1|]. eapply grows_trans; eauto.
  Qed.

  (** columns of integers fit into their fields *)
  Lemma ints_small s L T T' sw x ix l : wst s L sw -> slot G s L T IntL (EVar x ix) = Some T' ->
    eval_known depth (scope_of sw) false false (EVar x ix) = Ok (VList (map vint l)) -> Forall (small_int (w_width wo)) l.
  Proof.
    intros W Sl Ev. cbn [slot] in Sl. destruct (field_var G s L IntL (x, ix)) eqn:F; [|discriminate].
    unfold eval_known in Ev. rewrite eval_expr_eq in Ev. dlin Ev c k u. injection Ev as ->.
    destruct (w_var_raw wo ro G GG D CD _ _ _ _ _ _ (VList (map vint l)) _ _ _ W F E eq_refl) as (_ & _ & idcs & _ & _ & P).
    - intros [d X]; discriminate.
    - exists (map vint l). reflexivity.
    - inversion P as [| |K0 l0 A0 F0| |]; subst; try discriminate. assert (l0 = l) as ->; [|assumption].
      match goal with E : map vint l0 = map vint l |- _ => clear -E; rename E into H end. revert l H; induction l0 as [|a l0 IH]; intros [|b l] H; try discriminate; [reflexivity|]. injection H as -> H. now rewrite (IH _ H).
  Qed.

  Lemma printed_ints v v' : printed wo ro IntL v v' -> v' = v.
  Proof. intros H; inversion H; try reflexivity; discriminate. Qed.
  Lemma printed_flts l v' : printed wo ro FltL (VList (map VNum l)) v' ->
    exists m, v' = VList (map VNum m) /\ Forall2 (reads_as wo ro) l m.
  Proof.
    intros H; inversion H as [| | |K0 l0 m A0 F|]; subst; try discriminate. exists m. split; [reflexivity|]. assert (l0 = l) as <-; [|exact F].
    match goal with E : map VNum l0 = map VNum l |- _ => clear -E; rename E into H end. revert l H; induction l0 as [|a l0 IH]; intros [|b l] H; try discriminate; [reflexivity|]. injection H as -> H. now rewrite (IH _ H).
  Qed.
  Lemma reads_float l m : Forall2 (reads_as wo ro) l m -> Forall2 (float_rt wo ro) l m.
  Proof. induction 1 as [|a b l m R F IH]; constructor; [apply R|exact IH]. Qed.

  Lemma proceed_read {A} (d : A) m sr s L : rst s L sr -> if_proceed d m sr = m sr.
  Proof. intros [S _]. unfold if_proceed, mbind, should_proceed. now rewrite (so_look _ _ _ _ S). Qed.

  Lemma tail_ctrl c (ls : list str) l : In l (map (fun t : str => t ++ write_ctrl c) ls) -> has_ctrl c l.
  Proof. intros I. apply in_map_iff in I as (t & <- & _). eexists; reflexivity. Qed.

  Lemma map_vn_int l : map vn (map NInt l) = map vint l.
  Proof. rewrite map_map. reflexivity. Qed.

  (** ** TAB2 *)

  Lemma sim_tab2 s L O T T' cs f name : readable G (6 * w_width wo) s L O T (ITab2 cs f name) = Some T' ->
    sim s L O T T' (do_tab2 EW cs f name) (do_tab2 ER cs f name).
  Proof.
    cbn [readable]. intros Rd. set (es := [(FltV, f_c1 f); (FltV, f_c2 f); (IntV, f_l1 f); (IntV, f_l2 f); (IntV, f_n2 f)]) in *.
    destruct (slots G s L T es) as [T0|] eqn:Sl; [|discriminate]. apply named_inv in Rd as (NO & T1 & Sl2 & ->).
    intros sw sw' W H. unfold do_tab2 in H. cbn [EW write_env e_write] in H. fold EW in H.
    apply mbind_ok in H as (x & sw1 & H1 & H). destruct x. apply mbind_ok in H as (vs & sw2 & H2 & H).
    pose proof (spec_write_state _ _ _ _ H1) as X. subst sw1. pose proof (map_write_state _ _ _ _ _ H2) as X. subst sw2.
    apply mbind_ok in H as (tv & sw3 & H3 & H).
    destruct (in_sec _ _ _ _ _ _ _ W NO H3) as (si & si' & Wi & Eli & Hi & Thi & Rest).
    pose proof (map_write_state _ _ _ _ _ Hi) as X. subst si'. specialize (Rest Wi (kept_kept_in _ _ _ (kept_refl _))).
    destruct Rest as (W3 & K3 & El3 & Rest).
    unfold write_with in H. cbv beta in H. destruct (do c <- the_ctrl sw3; _) as [ls|] eqn:E; [|discriminate]. injection H as <-.
    binv E c. destruct tv as [|nv [|iv [|]]]; try discriminate.
    destruct vs as [|v1 [|v2 [|v3 [|v4 [|v5 [|]]]]]]; try discriminate. binv E nb. binv E it. binv E r.
    cbn [EW write_env e_wo] in E. pose proof (cont_of_inv _ _ E3) as Evs. injection Evs as E61 E62 E63 E64 E65 E66. symmetry in E65.
    pose proof E1 as Z1. pose proof E2 as Z2. apply as_Zs_inv in E1, E2. subst nv iv.
    destruct (w_ctrl G GG D _ _ _ _ _ _ _ _ _ W W3 (kp_up _ _ K3) H1 E0) as (CS & _ & Cw).
    destruct (w_added G D _ _ _ ls W3) as [W' K]. split; [exact W'|]. split; [eapply kept_trans; eauto|].
    exists ls. split; [cbn [add_lines ps_lines]; now rewrite El3, Eli|]. intros F sr I A.
    pose proof (map_write_vals _ _ _ _ _ _ _ _ H2) as Ev. pose proof (map_write_vals _ _ _ _ _ _ _ _ Hi) as Evi.
    assert (Ty : Forall2 typed (map fst es) [v1; v2; v3; v4; v5]) by (subst; tys).
    assert (Tyi : Forall2 typed (map fst tab_slots) [VList (map vint nb); VList (map vint it)]) by tys.
    destruct (slots_image wo ro depth G GG D CD ZO _ _ _ W es _ _ _ Sl Ev Ty) as (vs' & Pr).
    destruct (slots_image wo ro depth G GG D CD ZO _ _ _ Wi tab_slots _ _ _ Sl2 Evi Tyi) as (tv' & Pri).
    assert (tv' = [VList (map vint nb); VList (map vint it)]) as ->.
    { clear -Pri. cbn [tab_slots map fst] in Pri. inversion Pri as [|? ? ? ? p1 ? P1 Pa]; subst. inversion Pa as [|? ? ? ? p2 ? P2 Pb]; subst. inversion Pb; subst.
      apply printed_ints in P1, P2. now subst. }
    (* the columns *)
    assert (Sm : Forall (small_int (w_width wo)) nb /\ Forall (small_int (w_width wo)) it).
    { pose proof Sl2 as Sl3. unfold tab_slots in Sl3. cbn [slots] in Sl3.
      destruct (slot G _ L _ IntL (EVar $"NBT" [])) as [Ta|] eqn:Sa; [|discriminate].
      destruct (slot G _ L _ IntL (EVar $"INT" [])) as [Tb|] eqn:Sb; [|discriminate].
      destruct (mapM_two _ (EVar $"NBT" []) (EVar $"INT" []) [] _ _ _ Evi) as [V1 V2].
      split; [exact (ints_small _ _ _ _ _ _ _ _ Wi Sa V1)|exact (ints_small _ _ _ _ _ _ _ _ Wi Sb V2)]. }
    destruct Sm as [Sm1 Sm2].
    (* the first line *)
    pose proof Pr as Pr'. subst v1 v2 v3 v4 v5. cbn [es map fst] in Pr'.
    inversion Pr' as [|? ? ? ? p1 ? P1 Pa]; subst. inversion Pa as [|? ? ? ? p2 ? P2 Pb]; subst.
    inversion Pb as [|? ? ? ? p3 ? P3 Pc]; subst. inversion Pc as [|? ? ? ? p4 ? P4 Pd]; subst.
    inversion Pd as [|? ? ? ? p5 ? P5 Pe]; subst. inversion Pe; subst.
    apply printed_flt in P1 as (? & a & X1 & -> & Ra), P2 as (? & b & X2 & -> & Rb). injection X1 as <-. injection X2 as <-.
    apply printed_int in P3 as (l1 & X3 & ->), P4 as (l2 & X4 & ->), P5 as (n2 & X5 & ->).
    injection X3 as X3. injection X4 as X4. injection X5 as X5.
    assert (EL : length nb = length it).
    { unfold write_tab2 in E. destruct (Nat.eqb (length nb) (length it)) eqn:Q; [now apply Nat.eqb_eq|discriminate]. }
    destruct (proj1 (write_tab2_ok_iff wo r c nb it EL)) as (NN & lc & Ec); [eauto|].
    assert (El : exists tls, ls = lc ++ map (fun t : str => t ++ write_ctrl c) tls).
    { unfold write_tab2 in E. rewrite EL, Nat.eqb_refl in E. cbn [negb] in E. rewrite <- EL, Ec in E. cbn [bind] in E.
      binv E tls. injection E as <-. eauto. }
    destruct El as (tls & El). assert (Fc : full (w_width wo) lc) by (rewrite El in F; apply Forall_app in F; tauto).
    destruct (cont_full wo ro (set_N1 r (Z.of_nat (length nb))) c lc a b l1 l2 (Z.of_nat (length nb)) n2 SW Ec Fc (proj1 Ra) (proj1 Rb) X3 X4 eq_refl X5)
      as (CR & CF & l & -> & HC).
    assert (IN : in_field (w_width wo) (Z.of_nat (length nb))).
    { destruct CR as (_ & _ & _ & _ & (z & _ & Fz & Ez) & _). cbn [N1] in Ez. injection Ez as <-. exact Fz. }
    set (r' := {| C1 := a; C2 := b; L1 := NInt l1; L2 := NInt l2; N1 := NInt 0; N2 := NInt n2 |}).
    assert (CR0 : cont_rt wo ro r r').
    { destruct CR as (Q1 & Q2 & Q3 & Q4 & _ & Q6). unfold cont_rt. cbn [r' C1 C2 L1 L2 N1 N2 set_N1] in *. repeat (split; [assumption|]).
      split; [|assumption]. rewrite E65. exists 0. split; [now left|]. split; [apply small_zero, SW|reflexivity]. }
    destruct (tab2_roundtrip wo ro r r' c nb it SW CR0 CF EL NN Sm1 Sm2 IN) as (ls' & Els & _ & _ & Rt).
    rewrite E in Els. injection Els as <-. rewrite El in A, F, Rt. cbn [app] in A, F, Rt. rewrite El. cbn [app].
    pose proof (read_step (read_tab2 ro) sr l _ c _ _ HC A (Rt _ _ A)) as Rs.
    set (new := l :: map (fun t : str => t ++ write_ctrl c) tls) in *.
    set (sr1 := advance (ps_ofs sr) (ps_ofs sr + length new) sr) in *.
    assert (I1 : instep s L O T sw sr1) by (eapply instep_ext; eauto).
    assert (Kr : kept sr sr1) by (constructor; try reflexivity; apply abbr_refl).
    destruct (fields_step wo ro depth G GG D CD ZO _ _ _ _ _ _ sw _ es _ _ W Sl Ev Ty Pr I1 eq_refl eq_refl) as (d' & Hm & I2 & K2 & G2).
    destruct (Rest _ _ _ I2) as (si1 & Ii & Q1 & Q2 & Rin).
    destruct (fields_step wo ro depth G GG D CD ZO _ _ _ _ _ _ si si1 tab_slots _ _ Wi Sl2 Evi Tyi Pri Ii eq_refl eq_refl) as (d2 & Hm2 & I3 & K4 & G3).
    destruct (Rin _ (map_read ER (combine [VList (map vint nb); VList (map vint it)] (map snd tab_slots))) _ _ _ Hm2 I3 (kept_kept_in _ _ _ K4) G3)
      as (sr2 & Hs & I4 & K5 & Q3 & Q4 & G4 & G5).
    exists sr2. split; [|split; [|split; [|split; [|split; [|split]]]]].
    - unfold do_tab2. cbn [ER read_env e_write e_ro]. fold ER. unfold mbind at 1. rewrite Rs.
      unfold mbind at 1. unfold check_spec_read, lift. rewrite CS. unfold mbind at 1.
      assert (Em : map_read ER (combine [vn a; vn b; vint l1; vint l2; vint n2] [f_c1 f; f_c2 f; f_l1 f; f_l2 f; f_n2 f]) sr1 = (Ok tt, set_dic d' sr1)) by exact Hm.
      cbn [set_N1 r' C1 C2 L1 L2 N2 fst snd]. change (vn (NInt l1)) with (vint l1). change (vn (NInt l2)) with (vint l2). change (vn (NInt n2)) with (vint n2).
      rewrite Em. rewrite (proceed_read _ _ _ s L (is_rst _ _ _ _ _ _ _ _ _ _ I2)). rewrite !map_vn_int. exact Hs.
    - eapply instep_ext; eauto.
    - eapply kept_trans; [exact Kr|]. eapply kept_trans; eauto.
    - rewrite Q3. cbn [set_dic ps_lines]. rewrite Q1. reflexivity.
    - rewrite Q4. cbn [set_dic ps_ofs]. rewrite Q2. reflexivity.
    - eapply grows_trans; [|exact G4]. eapply grows_trans; [|exact G2]. now apply grows_ext.
    - intros Ed sE DE Ho WE AE. destruct (Thi Ed sE DE WE AE) as (sE1 & WE1 & AE1 & LE1 & Close).
      pose proof (third_fields wo ro blank depth G GG D CD Ed DE _ _ _ _ _ W WE AE (is_rst _ _ _ _ _ _ _ _ _ _ I2) (is_al _ _ _ _ _ _ _ _ _ _ I2) (holds_grows _ _ _ G4 Ho)
          es _ _ (instep_toks _ _ _ _ _ _ _ _ _ _ I2) Sl) as Ef.
      pose proof (third_fields wo ro blank depth G GG D CD Ed DE _ _ _ _ _ Wi WE1 AE1 (is_rst _ _ _ _ _ _ _ _ _ _ I3) (is_al _ _ _ _ _ _ _ _ _ _ I3) (holds_grows _ _ _ G5 Ho)
          tab_slots _ _ (instep_toks _ _ _ _ _ _ _ _ _ _ I3) Sl2) as Ef2.
      fold EW in Ef, Ef2. change (map snd es) with [f_c1 f; f_c2 f; f_l1 f; f_l2 f; f_n2 f] in Ef. change (map snd tab_slots) with tab_vars in Ef2.
      rewrite H2 in Ef. rewrite Hi in Ef2. cbn [fst] in Ef, Ef2.
      destruct (Close _ _ Ef2 WE1 (kept_kept_in _ _ _ (kept_refl _))) as (sE2 & Hc & WE2 & KE & LE).
      pose proof (third_ctrl G GG D Ed DE _ _ _ _ _ W3 WE2 (aligned_kept _ _ _ _ AE K3 KE) E0) as C2.
      exists (add_lines new sE2). split; [|split; [|split]].
      + unfold do_tab2. cbn [EW write_env e_write]. fold EW. unfold mbind at 1.
        rewrite (third_check G GG D Ed DE _ _ _ _ _ _ _ W WE AE Cw H1). unfold mbind at 1. rewrite Ef. unfold mbind at 1. rewrite Hc.
        unfold write_with. rewrite C2. cbn [EW write_env e_wo bind]. rewrite Z1. cbn [bind]. rewrite Z2. cbn [bind]. rewrite E3. cbn [bind]. now rewrite E, El.
      + apply (w_added G Ed). exact WE2.
      + eapply kept_trans; [exact KE|]. apply (w_added G Ed _ _ _ new WE2).
      + cbn [add_lines ps_lines]. now rewrite LE, LE1.
  Qed.

  (** ** TAB1 *)

  Lemma sim_tab1_with s L O T T' cs f x y name : readable G (6 * w_width wo) s L O T (ITab1 cs f x y name) = Some T' ->
    sim_with wo ro G D (starts wo ro depth {| fs_type := RTab1; fs_spec := cs;
      fs_slots := [(FltV, f_c1 f); (FltV, f_c2 f); (IntV, f_l1 f); (IntV, f_l2 f)] |}) s L O T T' (do_tab1 EW cs f x y name) (do_tab1 ER cs f x y name).
  Proof.
    cbn [readable]. intros Rd. set (es := [(FltV, f_c1 f); (FltV, f_c2 f); (IntV, f_l1 f); (IntV, f_l2 f)]) in *.
    destruct (slots G s L T es) as [T0|] eqn:Sl; [|discriminate]. apply named_inv in Rd as (NO & T1 & Sl2 & ->).
    set (ts := tab_slots ++ [var_slot x; var_slot y]) in *.
    intros sw sw' W H. unfold do_tab1 in H. cbn [EW write_env e_write] in H. fold EW in H.
    apply mbind_ok in H as (xx & sw1 & H1 & H). destruct xx. apply mbind_ok in H as (vs & sw2 & H2 & H).
    pose proof (spec_write_state _ _ _ _ H1) as X. subst sw1. pose proof (map_write_state _ _ _ _ _ H2) as X. subst sw2.
    apply mbind_ok in H as (tv & sw3 & H3 & H).
    destruct (in_sec _ _ _ _ _ _ _ W NO H3) as (si & si' & Wi & Eli & Hi & Thi & Rest).
    pose proof (map_write_state _ _ _ _ _ Hi) as X. subst si'. specialize (Rest Wi (kept_kept_in _ _ _ (kept_refl _))).
    destruct Rest as (W3 & K3 & El3 & Rest).
    unfold write_with in H. cbv beta in H. destruct (do c <- the_ctrl sw3; _) as [ls|] eqn:E; [|discriminate]. injection H as <-.
    binv E c. destruct tv as [|nv [|iv [|xv [|yv [|]]]]]; try discriminate.
    binv E nb. binv E it. binv E xs. binv E ys. binv E r.
    cbn [EW write_env e_wo] in E. pose proof (cont_of_inv _ _ E5) as Evs.
    destruct vs as [|v1 [|v2 [|v3 [|v4 [|v5 [|v6 [|]]]]]]]; try discriminate. cbn [app] in Evs.
    injection Evs as E61 E62 E63 E64 E65 E66. symmetry in E65, E66.
    pose proof E1 as Z1. pose proof E2 as Z2. pose proof E3 as Z3. pose proof E4 as Z4.
    apply as_Zs_inv in E1, E2. apply as_nums_inv in E3, E4. subst nv iv xv yv.
    destruct (w_ctrl G GG D _ _ _ _ _ _ _ _ _ W W3 (kp_up _ _ K3) H1 E0) as (CS & _ & Cw).
    destruct (w_added G D _ _ _ ls W3) as [W' K]. split; [exact W'|]. split; [eapply kept_trans; eauto|].
    exists ls. split; [cbn [add_lines ps_lines]; now rewrite El3, Eli|]. intros F sr I A.
    pose proof (map_write_vals _ _ _ _ _ _ _ _ H2) as Ev. pose proof (map_write_vals _ _ _ _ _ _ _ _ Hi) as Evi.
    assert (Ty : Forall2 typed (map fst es) [v1; v2; v3; v4]) by (subst; tys).
    assert (Tyi : Forall2 typed (map fst ts) [VList (map vint nb); VList (map vint it); VList (map VNum xs); VList (map VNum ys)]) by tys.
    destruct (slots_image wo ro depth G GG D CD ZO _ _ _ W es _ _ _ Sl Ev Ty) as (vs' & Pr).
    destruct (slots_image wo ro depth G GG D CD ZO _ _ _ Wi ts _ _ _ Sl2 Evi Tyi) as (tv' & Pri).
    assert (exists xs' ys', tv' = [VList (map vint nb); VList (map vint it); VList (map VNum xs'); VList (map VNum ys')] /\
      Forall2 (reads_as wo ro) xs xs' /\ Forall2 (reads_as wo ro) ys ys') as (xs' & ys' & -> & Fx & Fy).
    { clear -Pri. cbn [ts tab_slots app var_slot map fst] in Pri. inversion Pri as [|? ? ? ? p1 ? P1 Pa]; subst. inversion Pa as [|? ? ? ? p2 ? P2 Pb]; subst.
      inversion Pb as [|? ? ? ? p3 ? P3 Pc]; subst. inversion Pc as [|? ? ? ? p4 ? P4 Pd]; subst. inversion Pd; subst.
      apply printed_ints in P1, P2. apply printed_flts in P3 as (xs' & -> & F3), P4 as (ys' & -> & F4). subst. eauto. }
    (* the columns *)
    assert (Sm : Forall (small_int (w_width wo)) nb /\ Forall (small_int (w_width wo)) it).
    { pose proof Sl2 as Sl3. unfold ts, tab_slots in Sl3. cbn [slots app] in Sl3.
      destruct (slot G _ L _ IntL (EVar $"NBT" [])) as [Ta|] eqn:Sa; [|discriminate].
      destruct (slot G _ L _ IntL (EVar $"INT" [])) as [Tb|] eqn:Sb; [|discriminate].
      destruct (mapM_two _ (EVar $"NBT" []) (EVar $"INT" []) (map snd [var_slot x; var_slot y]) _ _ _ Evi) as [V1 V2].
      split; [exact (ints_small _ _ _ _ _ _ _ _ Wi Sa V1)|exact (ints_small _ _ _ _ _ _ _ _ Wi Sb V2)]. }
    destruct Sm as [Sm1 Sm2].
    (* the first line *)
    pose proof Pr as Pr'. subst v1 v2 v3 v4. cbn [es map fst] in Pr'.
    inversion Pr' as [|? ? ? ? p1 ? P1 Pa]; subst. inversion Pa as [|? ? ? ? p2 ? P2 Pb]; subst.
    inversion Pb as [|? ? ? ? p3 ? P3 Pc]; subst. inversion Pc as [|? ? ? ? p4 ? P4 Pd]; subst. inversion Pd; subst.
    apply printed_flt in P1 as (? & a & X1 & -> & Ra), P2 as (? & b & X2 & -> & Rb). injection X1 as <-. injection X2 as <-.
    apply printed_int in P3 as (l1 & X3 & ->), P4 as (l2 & X4 & ->).
    injection X3 as X3. injection X4 as X4.
    assert (EL : length nb = length it /\ length xs = length ys).
    { unfold write_tab1, write_tab1_body_lines in E. binv E lc. destruct (Nat.eqb (length nb) (length it)) eqn:Q; [|discriminate].
      destruct (Nat.eqb (length xs) (length ys)) eqn:Q'; [|discriminate]. split; now apply Nat.eqb_eq. }
    destruct EL as [EL EX].
    destruct (proj1 (write_tab1_ok_iff wo r c nb it xs ys EL EX)) as (NN & NX & (lc & Ec) & _); [eauto|].
    assert (El : exists tls, ls = lc ++ map (fun t : str => t ++ write_ctrl c) tls).
    { unfold write_tab1 in E. rewrite Ec in E. cbn [bind] in E. binv E tls. injection E as <-. eauto. }
    destruct El as (tls & El). assert (Fc : full (w_width wo) lc) by (rewrite El in F; apply Forall_app in F; tauto).
    destruct (cont_full wo ro (set_N2 (set_N1 r (Z.of_nat (length nb))) (Z.of_nat (length xs))) c lc a b l1 l2 (Z.of_nat (length nb)) (Z.of_nat (length xs))
      SW Ec Fc (proj1 Ra) (proj1 Rb) X3 X4 eq_refl eq_refl) as (CR & CF & l & -> & HC).
    assert (IN : in_field (w_width wo) (Z.of_nat (length nb)) /\ in_field (w_width wo) (Z.of_nat (length xs))).
    { destruct CR as (_ & _ & _ & _ & (z & _ & Fz & Ez) & (z' & _ & Fz' & Ez')). cbn [N1 N2] in Ez, Ez'. injection Ez as <-. injection Ez' as <-. auto. }
    destruct IN as [IN1 IN2].
    set (r' := {| C1 := a; C2 := b; L1 := NInt l1; L2 := NInt l2; N1 := NInt 0; N2 := NInt 0 |}).
    assert (CR0 : cont_rt wo ro r r').
    { assert (Z0 : int_rt wo (NInt 0) (NInt 0)) by (exists 0; split; [now left|]; split; [apply small_zero, SW|reflexivity]).
      destruct CR as (Q1 & Q2 & Q3 & Q4 & _ & _). unfold cont_rt. cbn [r' C1 C2 L1 L2 N1 N2 set_N1 set_N2] in *. repeat (split; [assumption|]).
      rewrite E65, E66. auto. }
    destruct (tab1_roundtrip wo ro r r' c nb it xs ys xs' ys' SW CR0 CF EL NN EX NX Sm1 Sm2 IN1 IN2 (reads_float _ _ Fx) (reads_float _ _ Fy)) as (ls' & Els & _ & _ & Rt).
    rewrite E in Els. injection Els as <-. rewrite El in A, F, Rt. cbn [app] in A, F, Rt. rewrite El. cbn [app].
    pose proof (read_step (read_tab1 ro) sr l _ c _ _ HC A (Rt _ _ A)) as Rs.
    set (new := l :: map (fun t : str => t ++ write_ctrl c) tls) in *.
    set (sr1 := advance (ps_ofs sr) (ps_ofs sr + length new) sr) in *.
    split.
    { do 4 eexists. split; [exact Ev|]. split; [exact Pr|]. split; [|exact CS]. cbn [header fs_type]. unfold mbind. rewrite Rs. reflexivity. }
    assert (I1 : instep s L O T sw sr1) by (eapply instep_ext; eauto).
    assert (Kr : kept sr sr1) by (constructor; try reflexivity; apply abbr_refl).
    destruct (fields_step wo ro depth G GG D CD ZO _ _ _ _ _ _ sw _ es _ _ W Sl Ev Ty Pr I1 eq_refl eq_refl) as (d' & Hm & I2 & K2 & G2).
    destruct (Rest _ _ _ I2) as (si1 & Ii & Q1 & Q2 & Rin).
    destruct (fields_step wo ro depth G GG D CD ZO _ _ _ _ _ _ si si1 ts _ _ Wi Sl2 Evi Tyi Pri Ii eq_refl eq_refl) as (d2 & Hm2 & I3 & K4 & G3).
    destruct (Rin _ (map_read ER (combine [VList (map vint nb); VList (map vint it); VList (map VNum xs'); VList (map VNum ys')] (map snd ts))) _ _ _ Hm2 I3 (kept_kept_in _ _ _ K4) G3)
      as (sr2 & Hs & I4 & K5 & Q3 & Q4 & G4 & G5).
    exists sr2. split; [|split; [|split; [|split; [|split; [|split]]]]].
    - unfold do_tab1. cbn [ER read_env e_write e_ro]. fold ER. unfold mbind at 1. rewrite Rs.
      unfold mbind at 1. unfold check_spec_read, lift. rewrite CS. unfold mbind at 1.
      set (rr := set_N2 _ _).
      assert (Em : map_read ER (combine (cont_vals rr) [f_c1 f; f_c2 f; f_l1 f; f_l2 f]) sr1 = (Ok tt, set_dic d' sr1)) by exact Hm.
      rewrite Em. rewrite (proceed_read _ _ _ s L (is_rst _ _ _ _ _ _ _ _ _ _ I2)). rewrite !map_vn_int. exact Hs.
    - eapply instep_ext; eauto.
    - eapply kept_trans; [exact Kr|]. eapply kept_trans; eauto.
    - rewrite Q3. cbn [set_dic ps_lines]. rewrite Q1. reflexivity.
    - rewrite Q4. cbn [set_dic ps_ofs]. rewrite Q2. reflexivity.
    - eapply grows_trans; [|exact G4]. eapply grows_trans; [|exact G2]. now apply grows_ext.
    - intros Ed sE DE Ho WE AE. destruct (Thi Ed sE DE WE AE) as (sE1 & WE1 & AE1 & LE1 & Close).
      pose proof (third_fields wo ro blank depth G GG D CD Ed DE _ _ _ _ _ W WE AE (is_rst _ _ _ _ _ _ _ _ _ _ I2) (is_al _ _ _ _ _ _ _ _ _ _ I2) (holds_grows _ _ _ G4 Ho)
          es _ _ (instep_toks _ _ _ _ _ _ _ _ _ _ I2) Sl) as Ef.
      pose proof (third_fields wo ro blank depth G GG D CD Ed DE _ _ _ _ _ Wi WE1 AE1 (is_rst _ _ _ _ _ _ _ _ _ _ I3) (is_al _ _ _ _ _ _ _ _ _ _ I3) (holds_grows _ _ _ G5 Ho)
          ts _ _ (instep_toks _ _ _ _ _ _ _ _ _ _ I3) Sl2) as Ef2.
      fold EW in Ef, Ef2. change (map snd es) with [f_c1 f; f_c2 f; f_l1 f; f_l2 f] in Ef. change (map snd ts) with (tab_vars ++ [ev x; ev y]) in Ef2.
      rewrite H2 in Ef. rewrite Hi in Ef2. cbn [fst] in Ef, Ef2.
      destruct (Close _ _ Ef2 WE1 (kept_kept_in _ _ _ (kept_refl _))) as (sE2 & Hc & WE2 & KE & LE).
      pose proof (third_ctrl G GG D Ed DE _ _ _ _ _ W3 WE2 (aligned_kept _ _ _ _ AE K3 KE) E0) as C2.
      exists (add_lines new sE2). split; [|split; [|split]].
      + unfold do_tab1. cbn [EW write_env e_write]. fold EW. unfold mbind at 1.
        rewrite (third_check G GG D Ed DE _ _ _ _ _ _ _ W WE AE Cw H1). unfold mbind at 1. rewrite Ef. unfold mbind at 1. rewrite Hc.
        unfold write_with. rewrite C2. cbn [EW write_env e_wo bind]. rewrite Z1. cbn [bind]. rewrite Z2. cbn [bind]. rewrite Z3. cbn [bind]. rewrite Z4. cbn [bind app].
        cbn [app] in E5. rewrite E5. cbn [bind]. now rewrite E, El.
      + apply (w_added G Ed). exact WE2.
      + eapply kept_trans; [exact KE|]. apply (w_added G Ed _ _ _ new WE2).
      + cbn [add_lines ps_lines]. now rewrite LE, LE1.
  Qed.
  Lemma sim_tab1 s L O T T' cs f x y name : readable G (6 * w_width wo) s L O T (ITab1 cs f x y name) = Some T' ->
    sim s L O T T' (do_tab1 EW cs f x y name) (do_tab1 ER cs f x y name).
  Proof. intros Rd. exact (sim_of_with wo ro G D _ _ _ _ _ _ _ _ (sim_tab1_with _ _ _ _ _ _ _ _ _ _ Rd)). Qed.
End Tables.
