(** C31: LIST records, sections, conditionals, recipes. *)
From Coq Require Import Ascii String ZArith Bool Lia List.
From Coq Require Import Floats.SpecFloat.
From Verif Require Import PyBase PyFloat ModelFortran ModelRecords ModelNum ModelRecipe ModelInterp.
From Verif Require Import SpecFields SpecInterp SpecRound ProofPyBase ProofFields ProofRecords.
From Verif Require Import ProofInterp ProofInterpFrame ProofInterpCtl ProofInterpSec ProofInterpMap ProofInterpWrite.
From Verif Require Import ProofRound1 ProofRound2 ProofRound3 ProofRound4 ProofThird ProofRound5 ProofRound6 ProofRound7.
Import ListNotations.
Open Scope Z_scope.

Lemma set_loops_same st : set_loops (ps_loops st) st = st. Proof. now destruct st. Qed.
Lemma nth_mid {A} (a b : list A) x : nth_error (a ++ x :: b) (length a) = Some x.
Proof. rewrite nth_error_app2, Nat.sub_diag by lia. reflexivity. Qed.

Section Equations.
  Variable G : schema.
  Variable cols : nat.
  Lemma items_loop_eq s L O T v a b body : list_item1 G s L O T (LLoop v a b body) =
    if control G L ((s, T) :: O) a && control G L ((s, T) :: O) b && new_loop G s L v then
      match list_items G s (v :: L) O T body with Some _ => Some T | None => None end
    else None.
  Proof. reflexivity. Qed.
  Lemma items_cons_eq s L O T i r : list_items G s L O T (LCons i r) =
    match list_item1 G s L O T i with Some T' => list_items G s L O T' r | None => None end.
  Proof. reflexivity. Qed.
  Lemma read_section_eq s L O T head tail body : readable G cols s L O T (ISection head tail body) =
    if str_eqb (fst head) (fst tail) && section_var G s L head then
      match readable_block G cols (fst head :: s) L ((s, T) :: O) [] body with Some _ => Some T | None => None end
    else None.
  Proof. reflexivity. Qed.
  Lemma read_for_eq s L O T v a b body : readable G cols s L O T (IFor v a b body) =
    if control G L ((s, T) :: O) a && control G L ((s, T) :: O) b && new_loop G s L v then
      match readable_block G cols s (v :: L) O T body with Some _ => Some T | None => None end
    else None.
  Proof. reflexivity. Qed.
  Lemma read_if_eq s L O T first more els : readable G cols s L O T (IIf first more els) =
    match readable_branch G cols s L O T (looks_of (RCons first more) els) first, readable_branches G cols s L O T more els with
    | Some a, Some b =>
        if stops els then Some (meet_all T (a ++ b))
        else match readable_block G cols s L O T els with
             | Some c => Some (meet_all T (a ++ b ++ [c]))
             | None => None
             end
    | _, _ => None
    end.
  Proof. reflexivity. Qed.
  Lemma read_cons_eq s L O T i r : readable_block G cols s L O T (BCons i r) =
    match readable G cols s L O T i with Some T' => readable_block G cols s L O T' r | None => None end.
  Proof. reflexivity. Qed.
  Lemma read_branch_eq s L O T Q c la body : readable_branch G cols s L O T Q (Branch c la body) =
    if match la with None => control_cond G L ((s, T) :: O) c | Some k => look_ok G s L O T c k body Q end then
      if stops body then Some []
      else match readable_block G cols s L O T body with Some a => Some [a] | None => None end
    else None.
  Proof. reflexivity. Qed.
  Lemma read_rcons_eq s L O T b r els : readable_branches G cols s L O T (RCons b r) els =
    match readable_branch G cols s L O T (looks_of (RCons b r) els) b, readable_branches G cols s L O T r els with
    | Some x, Some y => Some (x ++ y)
    | _, _ => None
    end.
  Proof. reflexivity. Qed.
End Equations.

Section Lists.
  Variable wo : wopts.
  Variable ro : ropts.
  Variable blank : bool.
  Variable depth : nat.
  Variable G : schema.
  Hypothesis GG : good_schema G.
  Variable D : dict.
  Hypothesis CD : conforms wo ro G D.
  Hypothesis ZO : zeros_ok wo ro.
  Hypothesis SW : same_width wo ro.

  Let EW := write_env ro wo blank depth.
  Let ER := read_env ro wo depth.
  Let wst := wst G D.
  Let rst := rst wo ro G D.
  Let instep := instep wo ro G D.
  Let sim := sim wo ro G D.

  (** ** The body of a LIST record *)

  Definition lthird (s L : list str) (sw : pstate) (fw : LM) (a b : lstate) (sr' : pstate) : Prop :=
    forall E sE, drops D E -> holds E sr' -> ProofRound2.wst G E s L sE -> aligned sw sE ->
    exists sE', fw a sE = (Ok b, sE') /\ ProofRound2.wst G E s L sE' /\ kept sE sE' /\ ps_lines sE' = ps_lines sE.

  Definition lsim (s L : list str) (O : list (list str * list extvar)) (T T' : list extvar) (fw fr : LM) : Prop :=
    forall sw sw' vals pos vals2 pos2, wst s L sw -> length vals = pos -> fw (vals, pos) sw = (Ok (vals2, pos2), sw') ->
      wst s L sw' /\ kept sw sw' /\ ps_lines sw' = ps_lines sw /\
      exists new new', vals2 = vals ++ new /\ pos2 = (pos + length new)%nat /\ Forall2 (reads_as wo ro) new new' /\
      forall sr before after, instep s L O T sw sr -> length before = pos ->
        exists sr', fr (before ++ new' ++ after, pos) sr = (Ok (before ++ new' ++ after, pos2), sr') /\ instep s L O T' sw' sr' /\
          kept sr sr' /\ ps_lines sr' = ps_lines sr /\ ps_ofs sr' = ps_ofs sr /\ grows sr sr' /\ lthird s L sw fw (vals, pos) (vals2, pos2) sr'.

  Lemma lthird_ret s L sw a sr' : lthird s L sw (fun ls => ret ls) a a sr'.
  Proof. intros E sE _ _ WE _. exists sE. split; [reflexivity|]. split; [exact WE|]. split; [apply kept_refl|reflexivity]. Qed.

  Lemma lsim_ret s L O T : lsim s L O T T (fun ls => ret ls) (fun ls => ret ls).
  Proof.
    intros sw sw' vals pos vals2 pos2 W Lv H. injection H as <- <- <-. split; [exact W|]. split; [apply kept_refl|]. split; [reflexivity|].
    exists [], []. split; [now rewrite app_nil_r|]. split; [cbn [length]; lia|]. split; [constructor|].
    intros sr before after I _. exists sr. split; [reflexivity|]. split; [exact I|]. split; [apply kept_refl|]. auto 6 using grows_refl, lthird_ret.
  Qed.

  Lemma lsim_seq s L O T1 T2 T3 a b a' b' : lsim s L O T1 T2 a a' -> lsim s L O T2 T3 b b' ->
    lsim s L O T1 T3 (fun ls => run ls' <- a ls; b ls') (fun ls => run ls' <- a' ls; b' ls').
  Proof.
    intros S1 S2 sw sw' vals pos vals2 pos2 W Lv H. apply mbind_ok in H as ([va pa] & sw1 & Ha & Hb).
    destruct (S1 _ _ _ _ _ _ W Lv Ha) as (W1 & K1 & E1 & n1 & m1 & -> & -> & F1 & R1).
    assert (Lq : length (vals ++ n1) = (pos + length n1)%nat) by (rewrite app_length; lia).
    destruct (S2 _ _ _ _ _ _ W1 Lq Hb) as (W2 & K2 & E2 & n2 & m2 & -> & -> & F2 & R2).
    split; [exact W2|]. split; [eapply kept_trans; eauto|]. split; [congruence|]. exists (n1 ++ n2), (m1 ++ m2).
    split; [now rewrite app_assoc|]. split; [rewrite app_length; lia|]. split; [now apply Forall2_app|].
    intros sr before after I Lb. destruct (R1 sr before (m2 ++ after) I Lb) as (sr1 & H1 & I1 & Kr1 & El1 & Eo1 & G1 & Th1).
    pose proof (Forall2_length F1) as Lm.
    assert (Lb2 : length (before ++ m1) = (pos + length n1)%nat) by (rewrite app_length; lia).
    destruct (R2 sr1 (before ++ m1) after I1 Lb2) as (sr2 & H2 & I2 & Kr2 & El2 & Eo2 & G2 & Th2).
    rewrite <- !app_assoc in H2.
    exists sr2. split; [unfold mbind; rewrite <- app_assoc, H1; exact H2|]. split; [exact I2|]. split; [eapply kept_trans; eauto|].
    split; [congruence|]. split; [congruence|]. split; [eapply grows_trans; eauto|].
    intros E sE DE Ho WE AE. destruct (Th1 E sE DE (holds_grows _ _ _ G2 Ho) WE AE) as (sE1 & M1 & WE1 & KE1 & LE1).
    destruct (Th2 E sE1 DE Ho WE1 (aligned_kept _ _ _ _ AE K1 KE1)) as (sE2 & M2 & WE2 & KE2 & LE2).
    exists sE2. split; [unfold mbind; rewrite M1; exact M2|]. split; [exact WE2|]. split; [eapply kept_trans; eauto|congruence].
  Qed.

  Lemma lsim_expr s L O T T' e : slot G s L T FltV e = Some T' -> lsim s L O T T' (list_expr EW e) (list_expr ER e).
  Proof.
    intros Sl sw sw' vals pos vals2 pos2 W Lv H. unfold list_expr in H. cbn [EW write_env e_write] in H. fold EW in H.
    apply mbind_ok in H as (vs & sw1 & H1 & H). pose proof (map_write_state _ _ _ _ _ H1) as X. subst sw1.
    destruct vs as [|v [|]]; try discriminate. apply mbind_ok in H as (n & sw1 & H2 & H). apply lift_ok in H2 as [H2 ->].
    injection H as <- <- <-. apply as_num_inv in H2 as ->.
    pose proof (map_write_vals _ _ _ _ _ _ _ _ H1) as Ev.
    assert (Ty : Forall2 typed (map fst [(FltV, e)]) [VNum n]) by tys.
    assert (Sls : slots G s L T [(FltV, e)] = Some T') by (cbn [slots]; now rewrite Sl).
    destruct (slots_image wo ro depth G GG D CD ZO _ _ _ W [(FltV, e)] _ _ _ Sls Ev Ty) as (vs' & Pr).
    pose proof Pr as Pr'. cbn [map fst] in Pr'. inversion Pr' as [|? ? ? ? p1 ? P1 Pa]; subst. inversion Pa; subst.
    apply printed_flt in P1 as (? & w & X1 & -> & Rw). injection X1 as <-.
    split; [exact W|]. split; [apply kept_refl|]. split; [reflexivity|]. exists [n], [w]. split; [reflexivity|]. split; [cbn [length]; lia|].
    split; [constructor; [exact Rw|constructor]|]. intros sr before after I Lb.
    destruct (fields_step wo ro depth G GG D CD ZO _ _ _ _ _ _ sw _ [(FltV, e)] _ _ W Sls Ev Ty Pr I eq_refl eq_refl) as (d' & Hm & I2 & K2 & G2).
    exists (set_dic d' sr). split; [|split; [exact I2|split; [exact K2|split; [reflexivity|split; [reflexivity|split; [exact G2|]]]]]].
    - unfold list_expr. cbn [ER read_env e_write]. fold ER. cbn [app]. rewrite <- Lb, nth_mid. unfold mbind.
      assert (Hm' : map_read ER [(vn w, e)] sr = (Ok tt, set_dic d' sr)) by exact Hm. rewrite Hm'. reflexivity.
    - intros Ed sE DE Ho WE AE.
      pose proof (third_fields wo ro blank depth G GG D CD Ed DE _ _ _ _ _ W WE AE (is_rst _ _ _ _ _ _ _ _ _ _ I2) (is_al _ _ _ _ _ _ _ _ _ _ I2) Ho
        [(FltV, e)] _ _ (instep_toks _ _ _ _ _ _ _ _ _ _ I2) Sls) as Ef. fold EW in Ef. cbn [map snd] in Ef. rewrite H1 in Ef. cbn [fst] in Ef.
      exists sE. split; [|split; [exact WE|split; [apply kept_refl|reflexivity]]].
      unfold list_expr. cbn [EW write_env e_write]. fold EW. unfold mbind at 1. rewrite Ef. reflexivity.
  Qed.

  Lemma lsim_pad s L O T : lsim s L O T T (list_pad EW) (list_pad ER).
  Proof.
    intros sw sw' vals pos vals2 pos2 W Lv H. unfold list_pad in H. cbn [EW write_env e_write] in H. injection H as <- <- <-.
    destruct (ZO (NFlt (S754_zero false)) eq_refl) as (w & Rw & _).
    split; [exact W|]. split; [apply kept_refl|]. split; [reflexivity|].
    exists (repeat (NFlt (S754_zero false)) (pad6 pos)), (repeat w (pad6 pos)). split; [reflexivity|]. split; [now rewrite repeat_length|].
    split; [induction (pad6 pos); constructor; assumption|]. intros sr before after I Lb. exists sr.
    split; [reflexivity|]. split; [exact I|]. split; [apply kept_refl|]. split; [reflexivity|]. split; [reflexivity|]. split; [apply grows_refl|].
    intros E sE _ _ WE _. exists sE. split; [reflexivity|]. split; [exact WE|]. split; [apply kept_refl|reflexivity].
  Qed.

  Lemma lsim_iter s L O T T' v l0 fw fr : is_loop L v = false -> lget v l0 = None -> lsim s (v :: L) O T T' fw fr ->
    forall is_ sw sw' vals pos vals2 pos2, ldel v (ps_loops sw) = l0 -> wst s L (set_loops l0 sw) -> length vals = pos ->
    iterate_l v is_ fw (vals, pos) sw = (Ok (vals2, pos2), sw') ->
    ldel v (ps_loops sw') = l0 /\ wst s L (set_loops l0 sw') /\ kept (set_loops l0 sw) (set_loops l0 sw') /\ ps_lines sw' = ps_lines sw /\
    exists new new', vals2 = vals ++ new /\ pos2 = (pos + length new)%nat /\ Forall2 (reads_as wo ro) new new' /\
      forall sr before after, ldel v (ps_loops sr) = l0 -> instep s L O T (set_loops l0 sw) (set_loops l0 sr) -> length before = pos ->
        exists sr', iterate_l v is_ fr (before ++ new' ++ after, pos) sr = (Ok (before ++ new' ++ after, pos2), sr') /\ ldel v (ps_loops sr') = l0 /\
         instep s L O T (set_loops l0 sw') (set_loops l0 sr') /\ kept (set_loops l0 sr) (set_loops l0 sr') /\
         ps_lines sr' = ps_lines sr /\ ps_ofs sr' = ps_ofs sr /\ grows sr sr' /\
         forall E sE, drops D E -> holds E sr' -> ldel v (ps_loops sE) = l0 -> ProofRound2.wst G E s L (set_loops l0 sE) ->
           aligned (set_loops l0 sw) (set_loops l0 sE) ->
           exists sE', iterate_l v is_ fw (vals, pos) sE = (Ok (vals2, pos2), sE') /\ ldel v (ps_loops sE') = l0 /\
             ProofRound2.wst G E s L (set_loops l0 sE') /\ kept (set_loops l0 sE) (set_loops l0 sE') /\ ps_lines sE' = ps_lines sE.
  Proof.
    intros N Nv S. induction is_ as [|i is_ IH]; intros sw sw' vals pos vals2 pos2 E W Lv H.
    - injection H as <- <- <-. split; [exact E|]. split; [exact W|]. split; [apply kept_refl|]. split; [reflexivity|].
      exists [], []. split; [now rewrite app_nil_r|]. split; [cbn [length]; lia|]. split; [constructor|].
      intros sr before after Er I _. exists sr. split; [reflexivity|]. split; [exact Er|]. split; [exact I|]. split; [apply kept_refl|].
      split; [reflexivity|]. split; [reflexivity|]. split; [apply grows_refl|]. intros Ed sE _ _ El WE _. exists sE. split; [reflexivity|].
      split; [exact El|]. split; [exact WE|]. split; [apply kept_refl|reflexivity].
    - cbn [iterate_l] in H. apply mbind_ok in H as (x & sa & Ha & H). apply mbind_ok in H as ([va pa] & sb & Hb & H).
      unfold modify in Ha. injection Ha as _ <-. rewrite E in Hb.
      destruct (S _ _ _ _ _ _ (w_enter G D _ _ _ _ i _ W N) Lv Hb) as (W1 & K1 & E1 & n1 & m1 & -> & -> & F1 & R1).
      assert (Eb : ldel v (ps_loops sb) = l0) by (rewrite (kp_loops _ _ K1); apply ldel_head).
      assert (Lq : length (vals ++ n1) = (pos + length n1)%nat) by (rewrite app_length; lia).
      destruct (IH _ _ _ _ _ _ Eb (w_exit G D _ _ _ _ _ _ W W1) Lq H) as (E2 & W2 & K2 & El2 & n2 & m2 & -> & -> & F2 & R2).
      split; [exact E2|]. split; [exact W2|]. split; [eapply kept_trans; [eapply kept_exit; exact K1|exact K2]|].
      split; [rewrite El2, E1; reflexivity|]. exists (n1 ++ n2), (m1 ++ m2).
      split; [now rewrite app_assoc|]. split; [rewrite app_length; lia|]. split; [now apply Forall2_app|].
      intros sr before after Er I Lb. pose proof (Forall2_length F1) as Lm.
      destruct (R1 _ before (m2 ++ after) (r_enter wo ro G D _ _ _ _ i _ _ _ _ I N) Lb) as (sr1 & H1 & I1 & Kr1 & Elr1 & Eor1 & G1 & Th1).
      assert (Er1 : ldel v (ps_loops sr1) = l0) by (rewrite (kp_loops _ _ Kr1); apply ldel_head).
      cbn [set_loops ps_lines ps_ofs] in Elr1, Eor1.
      destruct (R2 sr1 (before ++ m1) after Er1) as (sr2 & H2 & Er2 & I2 & Kr2 & Elr2 & Eor2 & G2 & Th2).
      { eapply r_exit; [exact I|exact I1|exact (kp_up _ _ Kr1)|exact G1]. }
      { rewrite app_length. lia. }
      rewrite <- !app_assoc in H2.
      exists sr2. split; [|split; [exact Er2|split; [exact I2|split; [|split; [congruence|split; [congruence|split]]]]]].
      + cbn [iterate_l]. unfold mbind at 1, modify. rewrite Er. unfold mbind at 1. rewrite <- app_assoc. rewrite H1. exact H2.
      + eapply kept_trans; [eapply kept_exit; exact Kr1|exact Kr2].
      + eapply grows_trans; [exact G1|exact G2].
      + intros Ed sE DE Ho El WE [AE1 AE2].
        destruct (Th1 Ed (set_loops ((v, i) :: l0) sE) DE (holds_grows _ _ _ G2 Ho) (w_enter G _ _ _ _ _ i _ WE N)) as (sE1 & M1 & WE1 & KE1 & LE1).
        { split; [reflexivity|exact AE2]. }
        assert (El' : ldel v (ps_loops sE1) = l0) by (rewrite (kp_loops _ _ KE1); apply ldel_head).
        destruct (Th2 Ed sE1 DE Ho El' (w_exit G _ _ _ _ _ _ _ WE WE1)) as (sE2 & M2 & El2' & WE2 & KE2 & LE2).
        { split; [reflexivity|]. cbn [set_loops ps_up]. rewrite (kp_up _ _ K1), (kp_up _ _ KE1). exact AE2. }
        exists sE2. split; [|split; [exact El2'|split; [exact WE2|split]]].
        * cbn [iterate_l]. unfold mbind at 1, modify. rewrite El. unfold mbind at 1. rewrite M1. exact M2.
        * eapply kept_trans; [eapply kept_exit; exact KE1|exact KE2].
        * rewrite LE2, LE1. reflexivity.
  Qed.

  Lemma lsim_loop s L O T T' v a b fw fr : control G L ((s, T) :: O) a = true -> control G L ((s, T) :: O) b = true -> new_loop G s L v = true ->
    lsim s (v :: L) O T T' fw fr -> lsim s L O T T (cycle_list_loop EW v a b fw) (cycle_list_loop ER v a b fr).
  Proof.
    intros Ca Cb NL S sw sw' vals pos vals2 pos2 W Lv H. unfold new_loop in NL. apply andb_true_iff in NL as [N _]. apply negb_true_iff in N.
    unfold cycle_list_loop in H. apply mbind_ok in H as (va & x & Ha & H). apply eval_ctl_ok in Ha as [-> Ha].
    apply mbind_ok in H as (vb & x & Hb & H). apply eval_ctl_ok in Hb as [-> Hb].
    apply mbind_ok in H as (za & x & Hza & H). apply lift_ok in Hza as [Hza ->].
    apply mbind_ok in H as (zb & x & Hzb & H). apply lift_ok in Hzb as [Hzb ->].
    destruct (lget v (ps_loops sw)) eqn:Nv; [discriminate|].
    apply mbind_ok in H as ([va' pa'] & s1 & Hi & H).
    set (l0 := ps_loops sw) in *.
    assert (W0 : wst s L (set_loops l0 sw)) by (unfold l0; now rewrite set_loops_same).
    destruct (lsim_iter _ _ _ _ _ _ l0 _ _ N Nv S _ _ _ _ _ _ _ (ldel_none _ _ Nv) W0 Lv Hi) as (E1 & W1 & K1 & El1 & new & new' & -> & -> & F & R).
    assert (Left : forall st, ldel v (ps_loops st) = l0 -> forall (m : LM) ls ls' st0, iterate_l v (zrange za zb) m ls st0 = (Ok ls', st) ->
      ps_loops st0 = l0 ->
      (if za <=? zb then modify (fun s => set_loops (ldel v (ps_loops s)) s) else ret tt) st = (Ok tt, set_loops l0 st)).
    { intros st El m ls ls' st0 Hit E0. destruct (za <=? zb) eqn:Q.
      - unfold modify. now rewrite El.
      - unfold zrange in Hit. replace (Z.to_nat (zb + 1 - za)) with 0%nat in Hit by lia. injection Hit as _ <-. rewrite <- E0, set_loops_same. reflexivity. }
    apply mbind_ok in H as (u & s2 & H3 & H). rewrite (Left _ E1 _ _ _ _ Hi eq_refl) in H3. injection H3 as _ <-. injection H as <- <- <-.
    rewrite (set_loops_same sw : set_loops l0 sw = sw) in K1.
    split; [exact W1|]. split; [exact K1|]. split; [exact El1|]. exists new, new'. split; [reflexivity|]. split; [reflexivity|]. split; [exact F|].
    intros sr before after I Lb. pose proof (is_al _ _ _ _ _ _ _ _ _ _ I) as [AL _]. fold l0 in AL.
    assert (Nvr : lget v (ps_loops sr) = None) by now rewrite <- AL.
    destruct (R sr before after) as (sr1 & Hr & Er & I1 & Kr & El & Eo & Gr & Th).
    { rewrite ldel_none by exact Nvr. now symmetry. }
    { rewrite (set_loops_same sw : set_loops l0 sw = sw), AL, set_loops_same. exact I. }
    { exact Lb. }
    exists (set_loops l0 sr1). split; [|split; [exact I1|split; [|split; [exact El|split; [exact Eo|split; [exact Gr|]]]]]].
    - assert (Ctl : forall e ve, control G L ((s, T) :: O) e = true -> eval_known (e_depth EW) (scope_of sw) true true e = Ok ve ->
        eval_ctl ER e sr = (Ok ve, sr)).
      { intros e ve Ce He. unfold eval_ctl. change (e_depth ER) with depth.
        rewrite <- (control_eval wo ro depth G GG D CD _ _ _ _ _ _ _ W I Ce). change (e_depth EW) with depth in He. now rewrite He. }
      unfold cycle_list_loop. unfold mbind at 1. rewrite (Ctl _ _ Ca Ha). unfold mbind at 1. rewrite (Ctl _ _ Cb Hb).
      unfold mbind at 1, lift. rewrite Hza. unfold mbind at 1. rewrite Hzb.
      rewrite Nvr. unfold mbind at 1. rewrite Hr. unfold mbind at 1. erewrite Left; eauto.
    - rewrite AL, set_loops_same in Kr. rewrite AL. exact Kr.
    - intros Ed sE DE Ho WE AE. pose proof AE as [AE1 AE2]. fold l0 in AE1.
      assert (NvE : lget v (ps_loops sE) = None) by now rewrite <- AE1.
      assert (HoE : holds Ed sr) by (eapply holds_grows; [exact Gr|exact Ho]).
      pose proof (third_instep wo ro G D Ed DE _ _ _ _ _ _ _ I AE HoE) as IE.
      assert (Ctl : forall e ve, control G L ((s, T) :: O) e = true -> eval_known (e_depth EW) (scope_of sw) true true e = Ok ve ->
        eval_ctl EW e sE = (Ok ve, sE)).
      { intros e ve Ce He. unfold eval_ctl. change (e_depth EW) with depth.
        rewrite (control_eval wo ro depth G GG Ed (drops_conforms wo ro G D CD Ed DE) _ _ _ _ _ _ _ WE IE Ce).
        rewrite <- (control_eval wo ro depth G GG D CD _ _ _ _ _ _ _ W I Ce).
        change (e_depth EW) with depth in He. now rewrite He. }
      destruct (Th Ed sE DE Ho) as (sE1 & M1 & El1' & WE1 & KE1 & LE1).
      { rewrite ldel_none by exact NvE. now symmetry. }
      { rewrite AE1, set_loops_same. exact WE. }
      { split; [reflexivity|exact AE2]. }
      exists (set_loops l0 sE1). split; [|split; [exact WE1|split; [|exact LE1]]].
      + unfold cycle_list_loop. unfold mbind at 1. rewrite (Ctl _ _ Ca Ha). unfold mbind at 1. rewrite (Ctl _ _ Cb Hb).
        unfold mbind at 1, lift. rewrite Hza. unfold mbind at 1. rewrite Hzb.
        rewrite NvE. unfold mbind at 1. rewrite M1. unfold mbind at 1. erewrite Left; eauto.
      + rewrite AE1, set_loops_same in KE1. rewrite AE1. exact KE1.
  Qed.

  Lemma lsim_items : (forall i s L O T T', list_item1 G s L O T i = Some T' -> lsim s L O T T' (list_item EW i) (list_item ER i)) /\
    (forall b s L O T T', list_items G s L O T b = Some T' -> lsim s L O T T' (list_body EW b) (list_body ER b)).
  Proof.
    apply lrecipe_mut.
    - intros e s L O T T' H. now apply lsim_expr.
    - intros s L O T T' H. injection H as <-. apply lsim_pad.
    - intros v a b body IH s L O T T' H. rewrite items_loop_eq in H.
      destruct (control G L ((s, T) :: O) a && control G L ((s, T) :: O) b && new_loop G s L v) eqn:C; [|discriminate].
      rewrite !andb_true_iff in C. destruct C as [[Ca Cb] NL]. destruct (list_items G s (v :: L) O T body) as [T1|] eqn:B; [|discriminate].
      injection H as <-. rewrite !list_loop_eq. eapply lsim_loop; eauto.
    - intros s L O T T' H. injection H as <-. apply lsim_ret.
    - intros i IHi r IHr s L O T T' H. rewrite items_cons_eq in H. destruct (list_item1 G s L O T i) as [T1|] eqn:E; [|discriminate].
      rewrite !list_cons_eq. eapply lsim_seq; eauto.
  Qed.

  (** ** LIST *)

  Lemma list_readable s L O T T' cs f body name : readable G (6 * w_width wo) s L O T (IList cs f body name) = Some T' ->
    exists T0 T1, slots G s L T (cont_slots f) = Some T0 /\ name_ok G s L name /\
      list_items G (sub_s name s) L (sub_O name s T0 O) (sub_T name T0) body = Some T1 /\ T' = out_T name T0 T1.
  Proof.
    cbn [readable]. destruct (slots G s L T (cont_slots f)) as [T0|]; [|discriminate]. destruct name as [u|]; cbn [name_ok sub_s sub_O sub_T out_T].
    - destruct (section_var G s L u); [|discriminate]. destruct (list_items G (fst u :: s) L ((s, T0) :: O) [] body) as [T1|] eqn:E; [|discriminate].
      intros H. injection H as <-. exists T0, T1. auto.
    - intros H. exists T0, T'. auto.
  Qed.

  Lemma sim_list_with s L O T T' cs f body name : readable G (6 * w_width wo) s L O T (IList cs f body name) = Some T' ->
    sim_with wo ro G D (starts wo ro depth {| fs_type := RList; fs_spec := cs; fs_slots := cont_slots f |}) s L O T T' (do_list EW cs f body name) (do_list ER cs f body name).
  Proof.
    intros Rd. apply list_readable in Rd as (T0 & T1 & Sl & NO & Li & ->).
    intros sw sw' W H. unfold do_list in H. cbn [EW write_env e_write] in H. fold EW in H.
    apply mbind_ok in H as (xx & sw1 & H1 & H). destruct xx. apply mbind_ok in H as (vs & sw2 & H2 & H).
    pose proof (spec_write_state _ _ _ _ H1) as X. subst sw1. pose proof (map_write_state _ _ _ _ _ H2) as X. subst sw2.
    apply mbind_ok in H as ([vals pos] & sw3 & H3 & H).
    destruct (in_sec wo ro blank depth G GG D _ _ _ _ _ _ _ W NO H3) as (si & si' & Wi & Eli & Hi & Thi & Rest).
    destruct (proj2 lsim_items _ _ _ _ _ _ Li _ _ _ _ _ _ Wi eq_refl Hi) as (Wi' & Ki & Eli' & new & new' & -> & -> & Fn & Rl). cbn [app] in *.
    specialize (Rest Wi' (kept_kept_in _ _ _ Ki)). destruct Rest as (W3 & K3 & El3 & Rest).
    unfold write_with in H. cbv beta in H. destruct (do c <- the_ctrl sw3; _) as [ls|] eqn:E; [|discriminate]. injection H as <-.
    binv E c. binv E r. cbn [EW write_env e_wo] in E. pose proof (cont_of_inv _ _ E1) as Evs.
    destruct (w_ctrl G GG D _ _ _ _ _ _ _ _ _ W W3 (kp_up _ _ K3) H1 E0) as (CS & _ & Cw).
    destruct (w_added G D _ _ _ ls W3) as [W' K]. split; [exact W'|]. split; [eapply kept_trans; eauto|].
    exists ls. split; [cbn [add_lines ps_lines]; now rewrite El3, Eli', Eli|]. intros F sr I A.
    pose proof (map_write_vals _ _ _ _ _ _ _ _ H2) as Ev.
    assert (Ty : Forall2 typed (map fst (cont_slots f)) vs) by (rewrite Evs; tys).
    destruct (slots_image wo ro depth G GG D CD ZO _ _ _ W (cont_slots f) _ _ _ Sl Ev Ty) as (vs' & Pr).
    pose proof Pr as Pr'. rewrite Evs in Pr'. cbn [cont_slots map fst] in Pr'.
    inversion Pr' as [|? ? ? ? v1 ? P1 Pa]; subst. inversion Pa as [|? ? ? ? v2 ? P2 Pb]; subst.
    inversion Pb as [|? ? ? ? v3 ? P3 Pc]; subst. inversion Pc as [|? ? ? ? v4 ? P4 Pd]; subst.
    inversion Pd as [|? ? ? ? v5 ? P5 Pe]; subst. inversion Pe as [|? ? ? ? v6 ? P6 Pf]; subst. inversion Pf; subst.
    apply printed_flt in P1 as (? & a & X1 & -> & Ra), P2 as (? & b & X2 & -> & Rb). injection X1 as <-. injection X2 as <-.
    apply printed_int in P3 as (l1 & X3 & ->), P4 as (l2 & X4 & ->), P5 as (n1 & X5 & ->), P6 as (n2 & X6 & ->).
    injection X3 as X3. injection X4 as X4. injection X5 as X5. injection X6 as X6.
    assert (Eb : n1 = Z.of_nat (length new) /\ exists lc tls, write_cont wo r c = Ok lc /\ ls = lc ++ map (fun t : str => t ++ write_ctrl c) tls).
    { unfold write_list in E. rewrite X5 in E. unfold num_lt_Z, Z_lt_num in E. cbn [num_num num_den] in E. rewrite !Z.mul_1_r in E.
      destruct (n1 <? Z.of_nat (length new)) eqn:Q1; [discriminate|]. destruct (Z.of_nat (length new) <? n1) eqn:Q2; [discriminate|].
      split; [lia|]. binv E lc. binv E tls. injection E as <-. eauto. }
    destruct Eb as (-> & lc & tls & Ec & El).
    assert (Fc : full (w_width wo) lc) by (rewrite El in F; apply Forall_app in F; tauto).
    destruct (cont_full wo ro r c lc a b l1 l2 _ n2 SW Ec Fc (proj1 Ra) (proj1 Rb) X3 X4 X5 X6) as (CR & CF & l & -> & HC).
    set (r' := {| C1 := a; C2 := b; L1 := NInt l1; L2 := NInt l2; N1 := NInt (Z.of_nat (length new)); N2 := NInt n2 |}) in *.
    destruct (ZO (NFlt (S754_zero false)) eq_refl) as (z0 & Rz & _).
    destruct (list_roundtrip wo ro r r' c new new' z0 SW CR CF X5 (reads_float wo ro _ _ Fn) (proj1 Rz)) as (ls' & Els & _ & _ & Rt).
    rewrite E in Els. injection Els as <-. rewrite El in A, F, Rt. cbn [app] in A, F, Rt. rewrite El. cbn [app].
    pose proof (read_step (read_list ro) sr l _ c _ _ HC A (Rt _ _ A)) as Rs.
    set (lns := l :: map (fun t : str => t ++ write_ctrl c) tls) in *.
    set (sr1 := advance (ps_ofs sr) (ps_ofs sr + length lns) sr) in *.
    split.
    { do 4 eexists. split; [exact Ev|]. split; [exact Pr|]. split; [|exact CS]. cbn [header fs_type]. unfold mbind. rewrite Rs. reflexivity. }
    assert (I1 : instep s L O T sw sr1) by (eapply instep_ext; eauto).
    assert (Kr : kept sr sr1) by (constructor; try reflexivity; apply abbr_refl).
    destruct (fields_step wo ro depth G GG D CD ZO _ _ _ _ _ _ sw _ (cont_slots f) _ _ W Sl Ev Ty Pr I1 eq_refl eq_refl) as (d' & Hm & I2 & K2 & G2).
    destruct (Rest _ _ _ I2) as (si1 & Ii & Q1 & Q2 & Rin).
    destruct (Rl si1 [] [] Ii eq_refl) as (si1' & Hl & Ii' & Kl & Ql1 & Ql2 & Gl & Thl). cbn [app] in Hl. rewrite app_nil_r in Hl.
    destruct (Rin _ (list_body ER body (new', 0%nat)) _ _ _ Hl Ii' (kept_kept_in _ _ _ Kl) Gl)
      as (sr2 & Hs & I4 & K5 & Q3 & Q4 & G4 & G5).
    exists sr2. split; [|split; [|split; [|split; [|split; [|split]]]]].
    - unfold do_list. cbn [ER read_env e_write e_ro]. fold ER. unfold mbind at 1. rewrite Rs.
      unfold mbind at 1. unfold check_spec_read, lift. rewrite CS. unfold mbind at 1.
      assert (Em : map_read ER (combine (cont_vals r') (fields_list f)) sr1 = (Ok tt, set_dic d' sr1)) by exact Hm.
      rewrite Em. rewrite (proceed_read wo ro G D _ _ _ s L (is_rst _ _ _ _ _ _ _ _ _ _ I2)).
      fold ER in Hs. unfold mbind at 1. rewrite Hs. pose proof (Forall2_length Fn) as Lf. rewrite (proj2 (Nat.ltb_ge _ _)) by lia. reflexivity.
    - eapply instep_ext; eauto.
    - eapply kept_trans; [exact Kr|]. eapply kept_trans; eauto.
    - rewrite Q3, Ql1. cbn [set_dic ps_lines]. rewrite Q1. reflexivity.
    - rewrite Q4, Ql2. cbn [set_dic ps_ofs]. rewrite Q2. reflexivity.
    - eapply grows_trans; [|exact G4]. eapply grows_trans; [|exact G2]. now apply grows_ext.
    - intros Ed sE DE Ho WE AE. destruct (Thi Ed sE DE WE AE) as (sE1 & WE1 & AE1 & LE1 & Close).
      pose proof (third_fields wo ro blank depth G GG D CD Ed DE _ _ _ _ _ W WE AE (is_rst _ _ _ _ _ _ _ _ _ _ I2) (is_al _ _ _ _ _ _ _ _ _ _ I2) (holds_grows _ _ _ G4 Ho)
          (cont_slots f) _ _ (instep_toks _ _ _ _ _ _ _ _ _ _ I2) Sl) as Ef.
      fold EW in Ef. change (map snd (cont_slots f)) with (fields_list f) in Ef. rewrite H2 in Ef. cbn [fst] in Ef.
      destruct (Thl Ed sE1 DE (holds_grows _ _ _ G5 Ho) WE1 AE1) as (sE1' & Ml & WE1' & KE1 & LE1').
      destruct (Close _ _ Ml WE1' (kept_kept_in _ _ _ KE1)) as (sE2 & Hc & WE2 & KE & LE). fold EW in Hc.
      pose proof (third_ctrl G GG D Ed DE _ _ _ _ _ W3 WE2 (aligned_kept _ _ _ _ AE K3 KE) E0) as C2.
      exists (add_lines lns sE2). split; [|split; [|split]].
      + unfold do_list. cbn [EW write_env e_write]. fold EW. unfold mbind at 1.
        rewrite (third_check G GG D Ed DE _ _ _ _ _ _ _ W WE AE Cw H1). unfold mbind at 1. rewrite Ef. unfold mbind at 1. rewrite Hc.
        unfold write_with. rewrite C2. cbn [EW write_env e_wo bind]. rewrite E1. cbn [bind]. now rewrite E, El.
      + apply (w_added G Ed). exact WE2.
      + eapply kept_trans; [exact KE|]. apply (w_added G Ed _ _ _ lns WE2).
      + cbn [add_lines ps_lines]. now rewrite LE, LE1', LE1.
  Qed.
  Lemma sim_list s L O T T' cs f body name : readable G (6 * w_width wo) s L O T (IList cs f body name) = Some T' ->
    sim s L O T T' (do_list EW cs f body name) (do_list ER cs f body name).
  Proof. intros Rd. exact (sim_of_with wo ro G D _ _ _ _ _ _ _ _ (sim_list_with _ _ _ _ _ _ _ _ _ Rd)). Qed.

  (** ** Sections and conditionals *)

  Lemma sim_less s L O T T' T'' mw mr : sim s L O T T' mw mr -> (forall t, In t T'' -> In t T') -> sim s L O T T'' mw mr.
  Proof.
    intros S Sub sw sw' W H. destruct (S _ _ W H) as (W' & K & new & En & R). split; [exact W'|]. split; [exact K|]. exists new. split; [exact En|].
    intros F sr I A. destruct (R F sr I A) as (sr' & Hr & [R1 R2 R3] & Q). exists sr'. split; [exact Hr|]. split; [|exact Q].
    constructor; [exact R1|exact R2|]. cbn [levels] in *. destruct R3 as (E1 & E2 & E3). auto.
  Qed.

  Lemma sim_guard s L O T T' b mw mr : sim s L O T T' mw mr -> sim s L O T T' (guarded b mw) (guarded b mr).
  Proof.
    intros S sw sw' W H. rewrite proceed_none in H by apply (so_look _ _ _ _ (proj1 W)).
    destruct (S _ _ W H) as (W' & K & new & En & R). split; [exact W'|]. split; [exact K|]. exists new. split; [exact En|].
    intros F sr I A. destruct (R F sr I A) as (sr' & Hr & Q1 & Q2 & Q3 & Q4 & Q5 & Th). exists sr'. split; [|do 5 (split; [assumption|])].
    - rewrite proceed_none; [exact Hr|]. apply (so_look _ _ _ _ (proj1 (is_rst _ _ _ _ _ _ _ _ _ _ I))).
    - intros Ed sE DE Ho WE AE. destruct (Th Ed sE DE Ho WE AE) as (sE' & Q). exists sE'.
      rewrite proceed_none; [exact Q|]. apply (so_look _ _ _ _ (proj1 WE)).
  Qed.

  Lemma sim_test s L O T T' c body body' aw ar bw br : control_cond G L ((s, T) :: O) c = true ->
    sim s L O T T' aw ar -> sim s L O T T' bw br ->
    sim s L O T T' (run t <- if_statement EW c None body; if t then aw else bw) (run t <- if_statement ER c None body'; if t then ar else br).
  Proof.
    intros C Sa Sb sw sw' W H. apply mbind_ok in H as (t & sw1 & Ht & H). cbn [if_statement] in Ht.
    assert (sw1 = sw) as -> by (injection Ht as _ <-; reflexivity). assert (Et : truthvalue EW (scope_of sw) c = Ok t) by exact (f_equal fst Ht).
    assert (S : sim s L O T T' (if t then aw else bw) (if t then ar else br)) by (destruct t; assumption).
    destruct (S _ _ W H) as (W' & K & new & En & R). split; [exact W'|]. split; [exact K|]. exists new. split; [exact En|].
    intros F sr I A. destruct (R F sr I A) as (sr' & Hr & Q1 & Q2 & Q3 & Q4 & Q5 & Th). exists sr'. split; [|do 5 (split; [assumption|])].
    - unfold mbind. cbn [if_statement]. unfold ER. rewrite <- (control_truth wo ro blank depth G GG D CD _ _ _ _ _ _ _ W I C). fold EW. rewrite Et. exact Hr.
    - intros Ed sE DE Ho WE AE. destruct (Th Ed sE DE Ho WE AE) as (sE' & M1 & QE). exists sE'. split; [|exact QE].
      pose proof (third_instep wo ro G D Ed DE _ _ _ _ _ _ _ I AE (holds_grows _ _ _ Q5 Ho)) as IE.
      unfold mbind. cbn [if_statement]. unfold EW. rewrite (control_truth wo ro blank depth G GG Ed (drops_conforms wo ro G D CD Ed DE) _ _ _ _ _ _ _ WE IE C).
      rewrite <- (control_truth wo ro blank depth G GG D CD _ _ _ _ _ _ _ W I C). fold EW. rewrite Et. exact M1.
  Qed.

  (** a section of the recipe: internal entries are made and removed *)
  Definition in_working (m : M unit) : M unit :=
    run _ <- modify (fun s => set_dic (init_working (ps_dic s)) s); run _ <- m; remove_working.

  Lemma init_abbr d : dget abbr_key (init_working d) = Some (VNames []).
  Proof. unfold init_working. rewrite dget_dset_other by discriminate. apply dget_dset_same. Qed.

  Lemma removed st : dget abbr_key (ps_dic st) = Some (VNames []) ->
    remove_working st = (Ok tt, set_dic (ddel (KStr $"__startidcs") (ddel (KStr $"__abbrevs") (ps_dic st))) st).
  Proof. intros H. unfold remove_working. unfold abbr_key in H. rewrite H. reflexivity. Qed.
  Lemma removed_user d k : ~ working_key k -> dget k (ddel (KStr $"__startidcs") (ddel (KStr $"__abbrevs") d)) = dget k d.
  Proof.
    intros N. rewrite dget_ddel_other; [rewrite dget_ddel_other; [reflexivity|]|]; intros ->; apply N; unfold working_key; auto.
  Qed.
  Lemma abbr_names a b : dget abbr_key (ps_dic a) = Some (VNames []) -> kept a b -> dget abbr_key (ps_dic b) = Some (VNames []).
  Proof. intros H K. eapply shape_leaf; [apply shape_sym, (kp_abbr _ _ K)|exact H|]. intros [d X]; discriminate. Qed.

  (** changing internal entries does not matter *)
  Lemma w_working D' s L st d' : ProofRound2.wst G D' s L st -> (forall k, ~ working_key k -> dget k d' = dget k (ps_dic st)) ->
    ProofRound2.wst G D' s L (set_dic d' st).
  Proof.
    intros W E. eapply wst_same; [exact W|apply working_same; [apply (so_open _ _ _ _ (proj1 W))|exact E]|apply shape_dic, (proj1 W)].
  Qed.
  Lemma r_working s L O T sw sw' st d' : instep s L O T sw st -> (forall k, ~ working_key k -> dget k d' = dget k (ps_dic st)) ->
    ps_loops sw' = ps_loops sw -> ps_up sw' = ps_up sw -> instep s L O T sw' (set_dic d' st) /\ grows st (set_dic d' st).
  Proof.
    intros I E E1 E2. pose proof (is_rst _ _ _ _ _ _ _ _ _ _ I) as R.
    assert (SE : same_entries st (set_dic d' st)) by (apply working_same; [apply (so_open _ _ _ _ (proj1 R))|exact E]).
    assert (Gr : grows st (set_dic d' st)) by now apply grows_same.
    split; [|exact Gr]. eapply instep_to; eauto.
    - eapply rst_same; [exact R|exact SE|apply shape_dic, (proj1 R)|reflexivity].
    - eapply toks_grows; [exact Gr| | |eapply instep_toks; exact I]; reflexivity.
  Qed.

  Lemma in_working_ok s L O T T' mw mr : sim s L O T T' mw mr -> forall u sw sw', wst s L sw -> in_working mw sw = (Ok tt, sw') ->
    wst s L sw' /\ kept_in (Some u) sw sw' /\ exists new, ps_lines sw' = ps_lines sw ++ new /\
      (full (w_width wo) new -> forall sr, instep s L O T sw sr -> at_lines new (ps_lines sr) (ps_ofs sr) ->
       exists sr', in_working mr sr = (Ok tt, sr') /\ instep s L O T' sw' sr' /\ kept_in (Some u) sr sr' /\ ps_lines sr' = ps_lines sr /\
         ps_ofs sr' = (ps_ofs sr + length new)%nat /\ grows sr sr' /\
         forall E sE, drops D E -> holds E sr' -> ProofRound2.wst G E s L sE -> aligned sw sE ->
           exists sE', in_working mw sE = (Ok tt, sE') /\ ProofRound2.wst G E s L sE' /\ kept_in (Some u) sE sE' /\ ps_lines sE' = ps_lines sE ++ new).
  Proof.
    intros S u sw sw' W H. unfold in_working in H. apply mbind_ok in H as (x & s1 & H1 & H). unfold modify in H1. injection H1 as _ <-.
    apply mbind_ok in H as (y & s2 & H2 & H). destruct y.
    set (s1 := set_dic (init_working (ps_dic sw)) sw) in *.
    assert (W1 : wst s L s1) by (apply w_working; [exact W|intros; now apply init_working_other]).
    destruct (S _ _ W1 H2) as (W2 & K2 & new & En & R).
    pose proof (abbr_names _ _ (init_abbr (ps_dic sw) : dget abbr_key (ps_dic s1) = _) K2) as Ab. rewrite (removed _ Ab) in H. injection H as <-.
    split; [apply w_working; [exact W2|apply removed_user]|]. destruct K2 as [Q1 Q2 Q3 Q4 Q5].
    split; [repeat split; try assumption; discriminate|]. exists new. split; [exact En|]. intros F sr I A.
    set (sr1 := set_dic (init_working (ps_dic sr)) sr).
    destruct (r_working _ _ _ _ _ s1 sr (init_working (ps_dic sr)) I (fun k Nk => init_working_other k (ps_dic sr) Nk) eq_refl eq_refl) as [I1 G1].
    destruct (R F sr1 I1 A) as (sr2 & Hr & I2 & K3 & El & Eo & G2 & Th).
    pose proof (abbr_names _ _ (init_abbr (ps_dic sr) : dget abbr_key (ps_dic sr1) = _) K3) as Abr.
    set (sw' := set_dic (ddel (KStr $"__startidcs") (ddel (KStr $"__abbrevs") (ps_dic s2))) s2).
    destruct (r_working _ _ _ _ _ sw' sr2 (ddel (KStr $"__startidcs") (ddel (KStr $"__abbrevs") (ps_dic sr2))) I2 (removed_user (ps_dic sr2)) eq_refl eq_refl) as [I3 G3].
    eexists. split; [|split; [exact I3|split; [|split; [exact El|split; [exact Eo|split]]]]].
    - unfold in_working. unfold mbind at 1, modify. fold sr1. unfold mbind at 1. rewrite Hr. now apply removed.
    - destruct K3 as [X1 X2 X3 X4 X5]. repeat split; try assumption; discriminate.
    - eapply grows_trans; [exact G1|]. eapply grows_trans; eauto.
    - intros Ed sE DE Ho WE AE. set (sE0 := set_dic (init_working (ps_dic sE)) sE).
      assert (WE0 : ProofRound2.wst G Ed s L sE0) by (apply w_working; [exact WE|intros; now apply init_working_other]).
      destruct (Th Ed sE0 DE (holds_grows _ _ _ G3 Ho) WE0 AE) as (sE1 & M1 & WE1 & KE1 & LE1).
      pose proof (abbr_names _ _ (init_abbr (ps_dic sE) : dget abbr_key (ps_dic sE0) = _) KE1) as AbE.
      eexists. split; [|split; [|split]].
      + unfold in_working. unfold mbind at 1, modify. fold sE0. unfold mbind at 1. rewrite M1. now apply removed.
      + apply w_working; [exact WE1|apply removed_user].
      + destruct KE1 as [X1 X2 X3 X4 X5]. repeat split; try assumption; discriminate.
      + exact LE1.
  Qed.

  Lemma section_in_section en (h : extvar) m st :
    (run _ <- open_section en h; run _ <- modify (fun s => set_dic (init_working (ps_dic s)) s); run _ <- m; run _ <- remove_working; close_section) st
    = in_section en (Some h) (in_working m) st.
  Proof.
    cbn [in_section]. unfold in_working, mbind. destruct (open_section en h st) as [[[]|e] s1]; [|reflexivity].
    destruct (modify _ s1) as [[[]|e] s2]; [|reflexivity]. destruct (m s2) as [[[]|e] s3]; [|reflexivity].
    destruct (remove_working s3) as [[[]|e] s4]; [|reflexivity]. destruct (close_section s4) as [[[]|e] s5]; reflexivity.
  Qed.

  Lemma sim_section s L O T T1 (h : extvar) mw mr : section_var G s L h = true -> sim (fst h :: s) L ((s, T) :: O) [] T1 mw mr ->
    sim s L O T T (in_section EW (Some h) (in_working mw)) (in_section ER (Some h) (in_working mr)).
  Proof.
    intros SV S sw sw' W H.
    destruct (in_sec wo ro blank depth G GG D _ _ (Some h) _ _ _ _ W SV H) as (si & si' & Wi & Eli & Hi & Thi & Rest). cbn [sub_s sub_O sub_T out_T] in *.
    destruct (in_working_ok _ _ _ _ _ _ _ S h _ _ Wi Hi) as (Wi' & Ki & new & En & R).
    destruct (Rest Wi' Ki) as (W' & K & El & Rs). split; [exact W'|]. split; [exact K|]. exists new. split; [now rewrite El, En, Eli|].
    intros F sr I A. destruct (Rs _ _ _ I) as (sr1 & I1 & E1 & E2 & Rin). rewrite <- E1, <- E2 in A.
    destruct (R F sr1 I1 A) as (sr2 & Hr & I2 & Kr & El2 & Eo2 & G2 & Thw).
    destruct (Rin _ _ _ _ _ Hr I2 Kr G2) as (sr3 & H3 & I3 & K3 & El3 & Eo3 & G3 & G4).
    exists sr3. split; [exact H3|]. split; [exact I3|]. split; [exact K3|]. split; [congruence|]. split; [lia|]. split; [exact G3|].
    intros Ed sE DE Ho WE AE. destruct (Thi Ed sE DE WE AE) as (sE1 & WE1 & AE1 & LE1 & Close).
    destruct (Thw Ed sE1 DE (holds_grows _ _ _ G4 Ho) WE1 AE1) as (sE1' & Mw & WE1' & KE1 & LE1').
    destruct (Close _ _ Mw WE1' KE1) as (sE2 & Hc & WE2 & KE & LE). exists sE2. split; [exact Hc|]. split; [exact WE2|]. split; [exact KE|].
    now rewrite LE, LE1', LE1.
  Qed.

  Lemma sim_eq s L O T T' mw mr mw' mr' : sim s L O T T' mw mr -> (forall st, ps_look st = None -> mw' st = mw st) ->
    (forall st, ps_look st = None -> mr' st = mr st) -> sim s L O T T' mw' mr'.
  Proof.
    intros S E1 E2 sw sw' W H. rewrite E1 in H by apply (so_look _ _ _ _ (proj1 W)).
    destruct (S _ _ W H) as (W' & K & new & En & R). split; [exact W'|]. split; [exact K|]. exists new. split; [exact En|].
    intros F sr I A. destruct (R F sr I A) as (sr' & Hr & Q1 & Q2 & Q3 & Q4 & Q5 & Th). exists sr'. split; [|do 5 (split; [assumption|])].
    - rewrite E2; [exact Hr|]. apply (so_look _ _ _ _ (proj1 (is_rst _ _ _ _ _ _ _ _ _ _ I))).
    - intros Ed sE DE Ho WE AE. destruct (Th Ed sE DE Ho WE AE) as (sE' & Q). exists sE'.
      rewrite E1; [exact Q|]. apply (so_look _ _ _ _ (proj1 WE)).
  Qed.

  (** ** Stopping *)
  Lemma stops_fails b : stops b = true -> forall st u st', ps_look st = None -> exec_block EW b st <> (Ok u, st').
  Proof.
    induction b as [|i r IH]; [discriminate|]. intros St st u st' Lk H. rewrite exec_cons_eq in H. unfold mbind at 1, should_proceed in H. rewrite Lk in H.
    apply mbind_ok in H as (x & s1 & H1 & H). assert (C : stops r = true \/ i = IStop) by (destruct i; auto). destruct C as [C| ->].
    - destruct x. exact (IH C _ _ _ (fk_look _ _ _ (proj1 (exec_frame EW) _ _ _ _ H1) Lk) H).
    - cbn [exec] in H1. rewrite proceed_none in H1 by exact Lk. discriminate H1.
  Qed.
  Lemma sim_stops s L O T T' b mr : stops b = true -> sim s L O T T' (exec_block EW b) mr.
  Proof. intros St sw sw' W H. exfalso. exact (stops_fails _ St _ _ _ (so_look _ _ _ _ (proj1 W)) H). Qed.

  Lemma fold_meet_In r : forall (x : list extvar) t, In t (fold_right (meet) x r) -> In t x /\ forall A, In A r -> In t A.
  Proof.
    induction r as [|y r IH]; cbn [fold_right]; intros x t H; [split; [exact H|intros A []]|].
    apply meet_In in H as [H1 H2]. destruct (IH _ _ H2) as [H3 H4]. split; [exact H3|]. intros A [<-|I]; auto.
  Qed.
  Lemma meet_all_In T l A t : In t (meet_all T l) -> In A l -> In t A.
  Proof. destruct l as [|x r]; [intros _ []|]. intros H. apply fold_meet_In in H as [H1 H2]. intros [<-|I]; auto. Qed.

End Lists.
