(** C31: texts, expressions in conditions and loop bounds, loops. *)
From Coq Require Import Ascii String ZArith Bool Lia List.
From Coq Require Import Floats.SpecFloat.
From Verif Require Import PyBase PyFloat ModelFortran ModelRecords ModelNum ModelRecipe ModelInterp.
From Verif Require Import SpecFields SpecInterp SpecRound ProofPyBase ProofFields ProofRecords.
From Verif Require Import ProofInterp ProofInterpFrame ProofInterpCtl ProofInterpSec ProofInterpMap ProofInterpWrite.
From Verif Require Import ProofRound1 ProofRound2 ProofRound3 ProofRound4 ProofThird ProofRound5 ProofRound6.
Import ListNotations.
Open Scope Z_scope.

Section Control.
  Variable wo : wopts.
  Variable ro : ropts.
  Variable blank : bool.
  Variable depth : nat.
  Variable G : schema.
  Hypothesis GG : good_schema G.
  Variable D : dict.
  Hypothesis CD : conforms wo ro G D.
  Hypothesis ZO : zeros_ok wo ro.
  Hypothesis SW : same_width wo ro.

  Let EW := write_env ro wo blank depth.
  Let ER := read_env ro wo depth.
  Let wst := wst G D.
  Let rst := rst wo ro G D.
  Let instep := instep wo ro G D.
  Let sim := sim wo ro G D.

  (** ** TEXT *)

  Lemma top_up L st : shape_ok G [] L st -> ps_up st = [].
  Proof. intros S. pose proof (so_names _ _ _ _ S) as X. destruct (ps_up st); [reflexivity|discriminate]. Qed.

  Lemma text_value L sw x ix t : wst [] L sw -> field_var G [] L TextV (x, ix) = true ->
    get_varval depth (scope_of sw) true x ix = Ok (VStr t) ->
    exists idcs, mapM (get_indexvalue (ps_loops sw)) ix = Ok idcs /\ path_get (at_path sw x idcs) (VDict D) = Some (VStr t).
  Proof.
    intros W F H. pose proof W as [S _]. pose proof (top_up _ _ S) as U.
    assert (E : get_raw (scope_of sw) true x ix = get_raw (scope_of sw) false x ix).
    { unfold get_raw. cbn [scope_of sc_loops sc_dic sc_up]. rewrite U. cbn [find_up].
      destruct (lget x (ps_loops sw)); [reflexivity|]. destruct (dget (KStr x) (ps_dic sw)); reflexivity. }
    unfold get_varval in H. rewrite E in H. binv H v.
    assert (Nd : ~ is_dict v) by (intros [d ->]; discriminate).
    destruct (w_get_inv wo ro G GG D CD _ _ _ _ _ _ _ W F E0 Nd) as (idcs & Ei & Hd & P); [exact I|].
    exists idcs. split; [exact Ei|]. inversion P; subst; try discriminate. injection H as <-. exact Hd.
  Qed.

  Lemma text_store L O T sw sr x ix t k : wst [] L sw -> field_var G [] L TextV (x, ix) = true ->
    get_varval depth (scope_of sw) true x ix = Ok (VStr t) -> instep [] L O T sw sr ->
    exists sr', set_var (x, ix) (VStr (t ++ spaces k)) sr = (Ok tt, sr') /\ instep [] L O T sw sr' /\ kept sr sr' /\
      ps_lines sr' = ps_lines sr /\ ps_ofs sr' = ps_ofs sr /\ grows sr sr' /\ tok_at sr' (pre (ps_up sr')) (x, ix).
  Proof.
    intros W F H I. destruct (text_value _ _ _ _ _ W F H) as (idcs & Ei & Hd).
    pose proof (is_rst _ _ _ _ _ _ _ _ _ _ I) as R. pose proof (is_al _ _ _ _ _ _ _ _ _ _ I) as A. destruct A as [AL _].
    rewrite AL in Ei. unfold at_path in Hd. rewrite (aligned_pre _ _ (is_al _ _ _ _ _ _ _ _ _ _ I)) in Hd. fold (at_path sr x idcs) in Hd.
    apply field_var_iff in F as (NL & _ & KK & K & Ad & _). cbn [fst snd] in *.
    destruct (r_get wo ro G GG D _ _ _ _ _ _ _ _ R NL K Ei Hd) as [Fr _]; [intros [d X]; discriminate|].
    destruct (set_var_stored x ix idcs (VStr (t ++ spaces k)) sr Ei Fr) as (d2 & Es & St).
    destruct (store_ok wo ro G D _ _ _ _ _ _ _ _ _ R K Hd (pr_text wo ro KK t k Ad) St) as (R2 & Gr & Lk).
    exists (set_dic d2 sr). split; [exact Es|]. split; [|split; [|split; [reflexivity|split; [reflexivity|split; [exact Gr|]]]]].
    - eapply instep_to; eauto. eapply toks_grows; [exact Gr| | |eapply instep_toks; exact I]; reflexivity.
    - constructor; try reflexivity. eapply stored_abbr; [exact St|eapply schema_user; eauto].
    - exists idcs, (VStr (t ++ spaces k)). split; [exact Ei|]. split; [|split; [exact Lk|intros [d X]; discriminate]].
      cbn [fst snd set_dic ps_up]. apply user_app. split; [apply (user_pre G GG), (so_sec _ _ _ _ (proj1 R))|].
      apply user_str; eapply schema_user; eauto.
  Qed.

  Definition text_vars (fs : list textfield) : list extvar :=
    flat_map (fun f : textfield => match fst f with Some x => [x] | None => [] end) fs.

  Lemma raw_top L st x ix : shape_ok G [] L st -> get_raw (scope_of st) true x ix = get_raw (scope_of st) false x ix.
  Proof.
    intros S. pose proof (top_up _ _ S) as U. unfold get_raw. cbn [scope_of sc_loops sc_dic sc_up]. rewrite U. cbn [find_up].
    destruct (lget x (ps_loops st)); [reflexivity|]. destruct (dget (KStr x) (ps_dic st)); reflexivity.
  Qed.

  Lemma text_fields_vars cols L fs : forall pos, text_fields G cols L pos fs = true -> forall x, In x (text_vars fs) -> field_var G [] L TextV x = true.
  Proof.
    induction fs as [|[u len] fs IH]; intros pos Tf x I; [destruct I|]. cbn [text_vars flat_map fst] in I. apply in_app_or in I.
    destruct len as [n|].
    - assert (Tq : text_fields G cols L pos ((u, Some n) :: fs) = match u with Some x => field_var G [] L TextV x | None => true end &&
        (0 <? n)%nat && (pos + n <=? cols)%nat && text_fields G cols L (pos + n) fs) by (destruct u; reflexivity).
      pose proof (eq_trans (eq_sym Tq) Tf) as Tf0. rewrite !andb_true_iff in Tf0. destruct Tf0 as [[[Fu _] _] Tf0].
      destruct I as [I|I]; [|now apply (IH _ Tf0)]. destruct u; [|destruct I]. destruct I as [<-|[]]. exact Fu.
    - destruct u as [[y iy]|]; [|discriminate]. destruct fs; [|discriminate]. cbn [text_fields] in Tf. apply andb_true_iff in Tf as [Fu _].
      destruct I as [[<-|[]]|[]]. exact Fu.
  Qed.

  Lemma third_text Ed L sw sE sr fs cols : drops D Ed -> wst [] L sw -> ProofRound2.wst G Ed [] L sE -> aligned sw sE ->
    rst [] L sr -> aligned sw sr -> holds Ed sr -> toks sr (text_vars fs) -> text_fields G cols L 0 fs = true ->
    text_write EW (scope_of sE) fs = text_write EW (scope_of sw) fs.
  Proof.
    intros DE W WE A R Ar Ho TK Tf. unfold text_write. f_equal. pose proof (text_fields_vars _ _ _ _ Tf) as Fv. clear Tf.
    induction fs as [|[u len] fs IH]; [reflexivity|]. cbn [mapM].
    assert (Q : text_piece EW (scope_of sE) (u, len) = text_piece EW (scope_of sw) (u, len)).
    { destruct u as [[x ix]|]; [|reflexivity]. cbn [text_piece EW write_env e_depth].
      assert (F : field_var G [] L TextV (x, ix) = true) by (apply Fv; now left).
      apply field_var_iff in F as (NL & _ & KK & K & _). cbn [fst snd] in *.
      destruct (third_raw wo ro G GG D CD Ed DE _ _ _ _ _ x ix W WE A R Ar Ho) as [Eq Ne].
      { right. split; [exact NL|]. split; [apply TK; now left|eauto]. }
      unfold get_varval. rewrite (raw_top _ _ _ _ (proj1 W)), (raw_top _ _ _ _ (proj1 WE)), <- Eq.
      destruct (get_raw (scope_of sw) false x ix) as [v|]; [|reflexivity]. cbn [bind]. destruct v; try reflexivity. destruct (Ne e eq_refl). }
    rewrite Q, IH; [reflexivity| |].
    - intros t I. apply TK. cbn [text_vars flat_map]. apply in_or_app. now right.
    - intros t I. apply Fv. cbn [text_vars flat_map]. apply in_or_app. now right.
  Qed.

  Lemma text_fields_read L O T sw cols : wst [] L sw -> forall fs ps pos before k sr,
    text_fields G cols L pos fs = true -> mapM (text_piece EW (scope_of sw)) fs = Ok ps -> instep [] L O T sw sr ->
    length before = pos -> (pos + length (concat ps) + k)%nat = cols ->
    exists sr', text_read fs (before ++ concat ps ++ spaces k) pos sr = (Ok tt, sr') /\ instep [] L O T sw sr' /\ kept sr sr' /\
      ps_lines sr' = ps_lines sr /\ ps_ofs sr' = ps_ofs sr /\ grows sr sr' /\ toks sr' (text_vars fs).
  Proof.
    intros W. induction fs as [|[u len] fs IH]; intros ps pos before k sr Tf Mp I Lb Lc.
    { exists sr. split; [reflexivity|]. split; [exact I|]. split; [apply kept_refl|]. split; [reflexivity|]. split; [reflexivity|]. split; [apply grows_refl|intros t []]. }
    cbn [mapM] in Mp. binv Mp p. binv Mp q. injection Mp as <-. cbn [concat] in *. rewrite app_length in Lc.
    destruct len as [n|].
    - assert (Tq : text_fields G cols L pos ((u, Some n) :: fs) = match u with Some x => field_var G [] L TextV x | None => true end &&
        (0 <? n)%nat && (pos + n <=? cols)%nat && text_fields G cols L (pos + n) fs) by (destruct u; reflexivity).
      pose proof (eq_trans (eq_sym Tq) Tf) as Tf0. clear Tq Tf. rename Tf0 into Tf. rewrite !andb_true_iff in Tf. destruct Tf as [[[Fu Ln] Lp] Tf]. apply Nat.ltb_lt in Ln. apply Nat.leb_le in Lp.
      assert (Lpn : length p = n).
      { destruct u as [[x ix]|]; cbn [text_piece] in E; [|injection E as <-; apply length_spaces].
        binv E v. destruct v; try discriminate. destruct (Nat.eqb (length s) n) eqn:Q; [|discriminate]. injection E as <-. now apply Nat.eqb_eq. }
      cbn [text_read]. rewrite (proj2 (Nat.leb_gt _ _)) by lia.
      assert (Sl : slice pos (pos + n) (before ++ (p ++ concat q) ++ spaces k) = p).
      { rewrite <- Lb, <- Lpn, <- app_assoc. apply slice_mid. }
      rewrite Sl.
      assert (St : exists sr1, (match u with Some x => set_var x (VStr p) | None => ret tt end) sr = (Ok tt, sr1) /\ instep [] L O T sw sr1 /\ kept sr sr1 /\
        ps_lines sr1 = ps_lines sr /\ ps_ofs sr1 = ps_ofs sr /\ grows sr sr1 /\ toks sr1 (match u with Some x => [x] | None => [] end)).
      { destruct u as [[x ix]|].
        - cbn [text_piece EW write_env e_depth] in E. destruct (get_varval depth (scope_of sw) true x ix) as [v|] eqn:Gv; [|discriminate]. cbn [bind] in E.
          destruct v; try discriminate. destruct (Nat.eqb (length s) n); [|discriminate]. injection E as ->.
          destruct (text_store _ _ _ _ _ _ _ _ 0%nat W Fu Gv I) as (sr1 & Q). cbn [spaces repeat] in Q. rewrite app_nil_r in Q. exists sr1.
          destruct Q as (Q1 & Q2 & Q3 & Q4 & Q5 & Q6 & Q7). do 6 (split; [assumption|]). intros t [<-|[]]. exact Q7.
        - exists sr. split; [reflexivity|]. split; [exact I|]. split; [apply kept_refl|]. split; [reflexivity|]. split; [reflexivity|].
          split; [apply grows_refl|intros t []]. }
      destruct St as (sr1 & Hs & I1 & K1 & El1 & Eo1 & G1 & TK1).
      destruct (IH q (pos + n)%nat (before ++ p) k sr1 Tf eq_refl I1) as (sr2 & Hr & I2 & K2 & El2 & Eo2 & G2 & TK2).
      { rewrite app_length. lia. }
      { lia. }
      exists sr2. split; [unfold mbind; rewrite Hs; rewrite <- app_assoc; rewrite <- app_assoc in Hr; exact Hr|]. split; [exact I2|].
      split; [eapply kept_trans; eauto|]. split; [congruence|]. split; [congruence|]. split; [eapply grows_trans; eauto|].
      intros t It. cbn [text_vars flat_map fst] in It. apply in_app_or in It as [It|It]; [|now apply TK2].
      exact (toks_grows _ _ _ G2 (kp_loops _ _ K2) (kp_up _ _ K2) TK1 t It).
    - destruct u as [[x ix]|]; [|discriminate]. destruct fs; [|discriminate]. cbn [text_fields] in Tf.
      apply andb_true_iff in Tf as [Fu Lp]. apply Nat.ltb_lt in Lp. injection E0 as <-. cbn [concat length] in *. rewrite app_nil_r.
      cbn [text_piece EW write_env e_depth] in E. destruct (get_varval depth (scope_of sw) true x ix) as [v|] eqn:Gv; [|discriminate]. cbn [bind] in E.
      destruct v; try discriminate. injection E as ->.
      destruct (text_store _ _ _ _ _ _ _ _ k W Fu Gv I) as (sr1 & Hs & Q1 & Q2 & Q3 & Q4 & Q5 & Q6).
      exists sr1. split; [|do 5 (split; [assumption|]); intros t [<-|[]]; exact Q6]. cbn [text_read].
      assert (Ll : length (before ++ p ++ spaces k) = cols) by (rewrite !app_length, length_spaces; lia). rewrite Ll.
      rewrite (proj2 (Nat.leb_gt _ _)) by lia.
      assert (Sl : slice pos cols (before ++ p ++ spaces k) = p ++ spaces k).
      { pose proof (slice_mid before (p ++ spaces k) []) as X. rewrite !app_nil_r in X.
        rewrite Lb in X. rewrite app_length, length_spaces in X. replace (pos + (length p + k))%nat with cols in X by lia. exact X. }
      rewrite Sl. unfold mbind. rewrite Hs. reflexivity.
  Qed.

  Lemma sim_text s L O T T' cs fs : readable G (6 * w_width wo) s L O T (IText cs fs) = Some T' ->
    sim s L O T T' (do_text EW cs fs) (do_text ER cs fs).
  Proof.
    cbn [readable]. intros Rd. destruct (at_top s && text_fields G (6 * w_width wo) L 0 fs) eqn:Tf; [|discriminate].
    injection Rd as <-. apply andb_true_iff in Tf as [Tp Tf]. destruct s; [|discriminate]. clear Tp.
    intros sw sw' W H. unfold do_text in H. cbn [EW write_env e_write] in H. fold EW in H.
    apply mbind_ok in H as (x & sw1 & H1 & H). destruct x. apply mbind_ok in H as (t & sw2 & H2 & H).
    pose proof (spec_write_state _ _ _ _ H1) as X. subst sw1. injection H2 as H2 <-.
    unfold write_with in H. cbv beta in H. destruct (do c <- the_ctrl sw; _) as [ls|] eqn:E; [|discriminate]. injection H as <-.
    binv E c. injection E as <-. unfold text_write in H2. binv H2 ps. injection H2 as <-.
    destruct (w_ctrl G GG D _ _ _ _ _ _ _ _ _ W W eq_refl H1 E0) as (CS & _ & _).
    set (ls := write_text (e_wo EW) (concat ps) c) in *.
    destruct (w_added G D _ _ _ ls W) as [W' K]. split; [exact W'|]. split; [exact K|].
    exists ls. split; [reflexivity|]. intros F sr I A.
    assert (Fl : length (ljust (6 * w_width wo) (concat ps) ++ write_ctrl c) = (6 * w_width wo + 9)%nat).
    { unfold ls, write_text in F. inversion F. cbn [EW write_env e_wo] in *. rewrite (Nat.mul_comm 6). rewrite (Nat.mul_comm 6) in H2. assumption. }
    rewrite app_length in Fl. pose proof (length_write_ctrl_ge c).
    assert (LL : length (ljust (6 * w_width wo) (concat ps)) = Nat.max (6 * w_width wo) (length (concat ps))).
    { unfold ljust. rewrite app_length, length_spaces. lia. }
    assert (Lh : (length (concat ps) <= 6 * w_width wo)%nat) by lia.
    assert (CF : ctrl_fits c) by (apply length_write_ctrl_iff; lia).
    pose proof (text_roundtrip wo ro (concat ps) c SW Lh CF (ps_lines sr) (ps_ofs sr) A) as Rt.
    assert (HC : has_ctrl c (ljust (w_width wo * 6) (concat ps) ++ write_ctrl c)) by (eexists; reflexivity).
    pose proof (read_step (read_text ro) sr _ [] c _ _ HC A Rt) as Rs.
    set (sr1 := advance (ps_ofs sr) (S (ps_ofs sr)) sr) in *.
    assert (I1 : instep [] L O T sw sr1) by (eapply instep_ext; eauto).
    assert (Kr : kept sr sr1) by (constructor; try reflexivity; apply abbr_refl).
    destruct (text_fields_read L O T sw (6 * w_width wo) W fs ps 0 [] (6 * w_width wo - length (concat ps)) sr1 Tf E I1 eq_refl ltac:(lia))
      as (sr2 & Hr & I2 & K2 & El2 & Eo2 & G2 & TK2).
    destruct (update_step wo ro G GG D _ _ c sw (add_lines ls sw) sr2 L I2 W E0 eq_refl eq_refl) as (sr3 & Hu & I3 & K3 & El3 & Eo3 & G3).
    exists sr3. split; [|split; [eapply instep_less; [exact I3|intros; apply in_or_app; now right]|split; [|split; [|split; [|split]]]]].
    - unfold do_text. cbn [ER read_env e_write e_ro]. unfold mbind at 1. rewrite Rs.
      unfold mbind at 1. unfold check_spec_read, lift. rewrite CS. unfold mbind at 1. cbn [app] in Hr. unfold ljust. rewrite Hr. exact Hu.
    - eapply kept_trans; [exact Kr|]. eapply kept_trans; eauto.
    - rewrite El3, El2. reflexivity.
    - rewrite Eo3, Eo2. unfold ls. cbn [write_text length sr1 advance ps_ofs]. lia.
    - eapply grows_trans; [|exact G3]. eapply grows_trans; [|exact G2]. now apply grows_ext.
    - intros Ed sE DE Ho WE AE. eapply third_lines; [exact WE|]. unfold do_text. cbn [EW write_env e_write]. fold EW. unfold mbind at 1.
      rewrite (third_check G GG D Ed DE _ _ _ _ _ _ _ W WE AE E0 H1). unfold mbind at 1.
      rewrite (third_text Ed L sw sE sr2 fs _ DE W WE AE (is_rst _ _ _ _ _ _ _ _ _ _ I2) (is_al _ _ _ _ _ _ _ _ _ _ I2) (holds_grows _ _ _ G3 Ho) TK2 Tf).
      unfold text_write. rewrite E. cbn [bind]. unfold write_with. rewrite (third_ctrl G GG D Ed DE _ _ _ _ _ W WE AE E0). reflexivity.
  Qed.

  (** ** Expressions in conditions and loop bounds *)

  (** a variable with the value the writer has, printed *)
  Definition known_at (st : pstate) (P : list key) (t : extvar) : Prop :=
    exists idcs v v' k, mapM (get_indexvalue (ps_loops st)) (snd t) = Ok idcs /\
      user_path (P ++ KStr (fst t) :: map KInt idcs) /\ look st (P ++ KStr (fst t) :: map KInt idcs) = Some v' /\
      path_get (P ++ KStr (fst t) :: map KInt idcs) (VDict D) = Some v /\
      kind_at G [] SecV (P ++ KStr (fst t) :: map KInt idcs) = Some k /\ printed wo ro k v v'.
  Fixpoint known_levels (st : pstate) (up : list frame) (O : list (list str * list extvar)) {struct O} : Prop :=
    match O with
    | [] => False
    | (s, T) :: O' =>
        s = map fr_name up /\ (forall t, In t T -> known_at st (pre up) t) /\
        match up with [] => O' = [] | _ :: fs => known_levels st fs O' end
    end.
  (** no other names *)
  Definition named_only (st : pstate) : Prop :=
    forall q x, user_path (q ++ [KStr x]) -> kind_at G [] SecV (q ++ [KStr x]) = None -> look st (q ++ [KStr x]) = None.

  Lemma levels_known st O : printed_part wo ro G D (root (ps_up st) (ps_dic st)) -> forall up, levels st up O -> known_levels st up O.
  Proof.
    intros P. induction O as [|[s T] O IH]; intros up Lv; [exact Lv|]. cbn [levels known_levels] in *. destruct Lv as (Es & TK & Lv).
    split; [exact Es|]. split.
    - intros t It. destruct (TK _ It) as (idcs & v' & Ei & U & Hl & Nv). destruct (P _ _ U Hl) as (v & Hv & [[_ X]|(k & K & X)]); [destruct (Nv X)|].
      exists idcs, v, v', k. auto 10.
    - destruct up; [exact Lv|now apply IH].
  Qed.
  Lemma part_named st : printed_part wo ro G D (root (ps_up st) (ps_dic st)) -> named_only st.
  Proof.
    intros P q x U K. destruct (look st (q ++ [KStr x])) as [u|] eqn:Hu; [exfalso|reflexivity].
    destruct (P _ _ U Hu) as (w & Hw & _). destruct (CD _ _ U Hw) as (k & K' & _). congruence.
  Qed.

  Lemma resolved_find sr dr0 x ix : dr0 = root (ps_up sr) (ps_dic sr) -> named_only sr ->
    forall O up d upr dr, opened up -> opened upr -> sec_frames G upr ->
    map frame_keys up = map frame_keys upr -> known_levels sr upr O -> resolved G O x ix = true ->
    (forall p, user_path p -> same_shape (path_get p (VDict (root up d))) (path_get p (VDict D))) -> root upr dr = dr0 ->
    exists v v' idcs z, find_up x d up = Some v /\ find_up x dr upr = Some v' /\ mapM (get_indexvalue (ps_loops sr)) ix = Ok idcs /\
      path_get (map KInt idcs) v = Some (vint z) /\ path_get (map KInt idcs) v' = Some (vint z).
  Proof.
    intros E0 NM. induction O as [|[s T] O IH]; intros up d upr dr Op Opr Sf Ek Lv Rs W Er; [discriminate|].
    cbn [known_levels] in Lv. destruct Lv as (Es & TK & Lv). cbn [resolved] in Rs.
    rewrite (find_up_eq up), (find_up_eq upr) by assumption. rewrite Er. pose proof (pre_keys _ _ Ek) as Ep. rewrite Ep.
    destruct (G s x) as [k|] eqn:K.
    - apply andb_prop in Rs as [Ad Rs]. apply mem_In in Rs. destruct (TK _ Rs) as (idcs & v & v' & k' & Ei & U & Hl & Hv & K' & X). cbn [fst snd] in *.
      unfold look in Hl. rewrite <- E0 in Hl.
      rewrite Es in K. rewrite (kind_var G upr x idcs k Sf K) in K'. injection K' as <-. destruct (printed_ofint _ _ _ _ _ Ad X) as (z & -> & ->).
      assert (Hw : path_get (pre upr ++ KStr x :: map KInt idcs) (VDict (root up d)) = Some (vint z)).
      { eapply shape_leaf; [apply shape_sym, W; exact U|exact Hv|]. intros [e Q]; discriminate. }
      assert (Sp : forall R, path_get (pre upr ++ KStr x :: map KInt idcs) R = Some (vint z) ->
        exists o, path_get (pre upr ++ [KStr x]) R = Some o /\ path_get (map KInt idcs) o = Some (vint z)).
      { intros R HR. change (KStr x :: map KInt idcs) with ([KStr x] ++ map KInt idcs) in HR. rewrite app_assoc, path_get_app in HR.
        destruct (path_get (pre upr ++ [KStr x]) R) as [o|]; [eauto|discriminate]. }
      destruct (Sp _ Hw) as (o & Ho & Zo). destruct (Sp _ Hl) as (o' & Ho' & Zo'). rewrite Ho, Ho'. eauto 10.
    - apply andb_true_iff in Rs as [Ni Rs]. apply negb_true_iff in Ni.
      assert (Nn : ~ internal x) by (intros Q; apply internalb_iff in Q; congruence).
      assert (U : user_path (pre upr ++ [KStr x])) by (apply user_app; split; [now apply (user_pre G GG)|apply (user_str x [] Nn)]).
      assert (Kn : kind_at G [] SecV (pre upr ++ [KStr x]) = None).
      { rewrite kind_pre by exact Sf. rewrite <- Es. cbn [kind_at]. now rewrite K. }
      assert (HD : path_get (pre upr ++ [KStr x]) (VDict D) = None).
      { destruct (path_get (pre upr ++ [KStr x]) (VDict D)) as [u|] eqn:Hu; [exfalso|reflexivity].
        destruct (CD _ _ U Hu) as (k & K' & _). congruence. }
      assert (Hw : path_get (pre upr ++ [KStr x]) (VDict (root up d)) = None) by (eapply shape_none; [apply shape_sym, W; exact U|exact HD]).
      assert (Hr : path_get (pre upr ++ [KStr x]) (VDict dr0) = None) by (rewrite E0; exact (NM _ _ U Kn)).
      rewrite Hw, Hr. destruct upr as [|fr upr].
      + rewrite Lv in Rs. discriminate.
      + destruct up as [|f up]; [discriminate|]. injection Ek as _ Ek. inversion Op; inversion Opr; subst. destruct Sf as [_ Sf].
        apply IH; auto.
  Qed.

  Lemma known_raw s L O T sw sr x ix : wst s L sw -> shape_ok G s L sr -> aligned sw sr -> named_only sr ->
    known_levels sr (ps_up sr) ((s, T) :: O) ->
    (if is_loop L x then no_name G s x else resolved G ((s, T) :: O) x ix) = true ->
    exists z, get_raw (scope_of sw) true x ix = Ok (vint z) /\ get_raw (scope_of sr) true x ix = Ok (vint z).
  Proof.
    intros W Sr [AL AU] NM KL H. pose proof W as [S Wd].
    destruct (is_loop L x) eqn:IL.
    - apply no_name_iff in H as [Ni K]. destruct (loop_value _ _ _ _ _ S IL) as [i Hi]. exists i. split.
      + eapply get_loop; eauto. eapply w_absent; eauto.
      + rewrite AL in Hi. eapply get_loop; eauto. rewrite (root_dget (ps_up sr)) by apply (so_open _ _ _ _ Sr). apply NM.
        * apply user_app. split; [apply (user_pre G GG), (so_sec _ _ _ _ Sr)|apply (user_str x [] Ni)].
        * rewrite kind_pre by apply (so_sec _ _ _ _ Sr). rewrite <- (so_names _ _ _ _ Sr). cbn [kind_at]. now rewrite K.
    - destruct (resolved_find sr _ x ix eq_refl NM ((s, T) :: O) (ps_up sw) (ps_dic sw) (ps_up sr) (ps_dic sr)
        (so_open _ _ _ _ S) (so_open _ _ _ _ Sr) (so_sec _ _ _ _ Sr) AU KL H) as (v & v' & idcs & z & F1 & F2 & Ei & Z1 & Z2).
      + intros p U. apply (Wd p U).
      + reflexivity.
      + exists z. unfold get_raw. cbn [scope_of sc_loops sc_dic sc_up]. rewrite (loop_none _ _ _ _ _ S IL), (loop_none _ _ _ _ _ Sr IL), F1, F2.
        rewrite AL. destruct ix as [|q ix].
        * injection Ei as <-. injection Z1 as ->. injection Z2 as ->. auto.
        * rewrite Ei. cbn [bind]. split; now apply array_get_path.
  Qed.
  Lemma control_raw s L O T sw sr x ix : wst s L sw -> instep s L O T sw sr ->
    (if is_loop L x then no_name G s x else resolved G ((s, T) :: O) x ix) = true ->
    exists z, get_raw (scope_of sw) true x ix = Ok (vint z) /\ get_raw (scope_of sr) true x ix = Ok (vint z).
  Proof.
    intros W I. pose proof (is_rst _ _ _ _ _ _ _ _ _ _ I) as [Sr (P & _)].
    apply known_raw; [exact W|exact Sr|apply (is_al _ _ _ _ _ _ _ _ _ _ I)|now apply part_named|].
    apply levels_known; [exact P|apply (is_lv _ _ _ _ _ _ _ _ _ _ I)].
  Qed.

  Lemma control_eval s L O T sw sr e : wst s L sw -> instep s L O T sw sr -> control G L ((s, T) :: O) e = true ->
    eval_known depth (scope_of sw) true true e = eval_known depth (scope_of sr) true true e.
  Proof.
    intros W I C. unfold eval_known. rewrite (eval_agree depth (scope_of sw) (scope_of sr)); [reflexivity|].
    assert (Q : forall x ix, In (x, ix) (vars_of e) -> (if is_loop L x then no_name G s x else resolved G ((s, T) :: O) x ix) = true).
    { induction e as [x ix|x ix|de v|a IH|a IHa b IHb|a IHa b IHb|a IHa b IHb|a IHa b IHb|a IHa b IHb]; intros y iy Iy; cbn [vars_of] in Iy.
      1, 2: destruct Iy as [Q|[]]; injection Q as <- <-; exact C.
      1: destruct Iy. 1: now apply IH.
      all: cbn [control] in C; apply andb_true_iff in C as [Ca Cb]; apply in_app_or in Iy as [Iy|Iy]; auto. }
    intros x ix Ix. destruct (control_raw _ _ _ _ _ _ _ _ W I (Q _ _ Ix)) as (z & E1 & E2). rewrite E1, E2. split; [reflexivity|]. intros a; discriminate.
  Qed.

  Lemma control_truth s L O T sw sr c : wst s L sw -> instep s L O T sw sr -> control_cond G L ((s, T) :: O) c = true ->
    truthvalue EW (scope_of sw) c = truthvalue ER (scope_of sr) c.
  Proof.
    intros W I. induction c as [r a b|a IHa b IHb|a IHa b IHb]; cbn [control_cond truthvalue]; intros C; apply andb_true_iff in C as [Ca Cb].
    - unfold eval_relation. cbn [EW ER write_env read_env e_depth].
      rewrite (control_eval _ _ _ _ _ _ _ W I Ca), (control_eval _ _ _ _ _ _ _ W I Cb). reflexivity.
    - rewrite (IHa Ca), (IHb Cb). reflexivity.
    - rewrite (IHa Ca), (IHb Cb). reflexivity.
  Qed.

End Control.

(** ** Loops *)

Section Loops.
  Variable wo : wopts.
  Variable ro : ropts.
  Variable blank : bool.
  Variable depth : nat.
  Variable G : schema.
  Hypothesis GG : good_schema G.
  Variable D : dict.
  Hypothesis CD : conforms wo ro G D.

  Let EW := write_env ro wo blank depth.
  Let ER := read_env ro wo depth.
  Let wst := wst G D.
  Let rst := rst wo ro G D.
  Let instep := instep wo ro G D.
  Let sim := sim wo ro G D.

  Lemma lget_cons_same v i l : lget v ((v, i) :: l) = Some i.
  Proof. cbn [lget]. now rewrite str_eqb_refl. Qed.
  Lemma lget_cons_other v x i l : x <> v -> lget x ((v, i) :: l) = lget x l.
  Proof. intros N. cbn [lget]. destruct (str_eqb x v) eqn:E; [apply str_eqb_eq in E; contradiction|reflexivity]. Qed.

  Lemma idx_weaken v i l : lget v l = None -> forall ix idcs, mapM (get_indexvalue l) ix = Ok idcs ->
    mapM (get_indexvalue ((v, i) :: l)) ix = Ok idcs.
  Proof.
    intros N. induction ix as [|q ix IH]; intros idcs H; [exact H|]. cbn [mapM] in *. binv H a. binv H r. injection H as <-.
    rewrite (IH _ eq_refl). assert (Q : get_indexvalue ((v, i) :: l) q = Ok a); [|now rewrite Q].
    destruct q as [y|]; [|exact E]. cbn [get_indexvalue] in *. rewrite lget_cons_other; [exact E|]. intros ->. rewrite N in E. discriminate.
  Qed.

  Lemma shape_enter s L l0 v i st : shape_ok G s L (set_loops l0 st) -> is_loop L v = false -> shape_ok G s (v :: L) (set_loops ((v, i) :: l0) st).
  Proof.
    intros [S1 S2 S3 S4 S5] N. constructor; try assumption. intros x. cbn [set_loops ps_loops] in *. unfold is_loop in *. cbn [existsb].
    destruct (str_eqb x v) eqn:E; cbn [orb].
    - apply str_eqb_eq in E as ->. split; [intros _; exists i; apply lget_cons_same|reflexivity].
    - cbn [lget]. rewrite E. apply S5.
  Qed.
  Lemma w_enter Q s L l0 v i st : ProofRound2.wst G Q s L (set_loops l0 st) -> is_loop L v = false ->
    ProofRound2.wst G Q s (v :: L) (set_loops ((v, i) :: l0) st).
  Proof. intros [S W] N. split; [now apply shape_enter|exact W]. Qed.
  Lemma r_enter s L l0 v i O T sw sr : instep s L O T (set_loops l0 sw) (set_loops l0 sr) -> is_loop L v = false ->
    instep s (v :: L) O T (set_loops ((v, i) :: l0) sw) (set_loops ((v, i) :: l0) sr).
  Proof.
    intros [[S R] [_ A2] Lv] N. constructor.
    - split; [now apply shape_enter|exact R].
    - split; [reflexivity|exact A2].
    - assert (Nv : lget v l0 = None) by (apply (loop_none _ _ _ _ _ S N)). cbn [set_loops ps_up] in *.
      revert Lv. generalize ((s, T) :: O) as Q, (ps_up sr) as up. induction Q as [|[s' T'] Q IH]; intros up Lv; [exact Lv|].
      cbn [levels] in *. destruct Lv as (E1 & E2 & E3). split; [exact E1|]. split.
      + intros t It. destruct (E2 t It) as (idcs & v' & Ei & Rest). exists idcs, v'. split; [|exact Rest]. cbn [set_loops ps_loops] in *. now apply idx_weaken.
      + destruct up; [exact E3|now apply IH].
  Qed.
  Lemma shape_exit s L L' l0 st st1 : shape_ok G s L (set_loops l0 st) -> shape_ok G s L' st1 -> shape_ok G s L (set_loops l0 st1).
  Proof. intros [S1 S2 S3 S4 S5] [R1 R2 R3 R4 R5]. constructor; assumption. Qed.
  Lemma w_exit Q s L L' l0 st st1 : ProofRound2.wst G Q s L (set_loops l0 st) -> ProofRound2.wst G Q s L' st1 -> ProofRound2.wst G Q s L (set_loops l0 st1).
  Proof. intros [S _] [S1 W1]. split; [eapply shape_exit; eauto|exact W1]. Qed.
  Lemma r_exit s L L' l0 O T T' sw sr sw1 sr1 : instep s L O T (set_loops l0 sw) (set_loops l0 sr) -> instep s L' O T' sw1 sr1 ->
    ps_up sr1 = ps_up sr -> grows sr sr1 -> instep s L O T (set_loops l0 sw1) (set_loops l0 sr1).
  Proof.
    intros [[S R] A Lv] [[S1 R1] [_ A2] Lv1] U Gr. constructor.
    - split; [eapply shape_exit; eauto|exact R1].
    - split; [reflexivity|exact A2].
    - cbn [set_loops ps_up] in *. rewrite U. exact (levels_grows (set_loops l0 sr) (set_loops l0 sr1) _ _ Gr eq_refl Lv).
  Qed.
  Lemma kept_exit l0 l a b : kept (set_loops l a) b -> kept (set_loops l0 a) (set_loops l0 b).
  Proof. intros [K1 K2 K3 K4 K5]. constructor; try assumption. reflexivity. Qed.

  Lemma sim_iter s L O T T' v l0 mw mr : is_loop L v = false -> lget v l0 = None -> sim s (v :: L) O T T' mw mr ->
    forall is_ sw sw', ldel v (ps_loops sw) = l0 -> wst s L (set_loops l0 sw) -> iterate v is_ mw sw = (Ok tt, sw') ->
    ldel v (ps_loops sw') = l0 /\ wst s L (set_loops l0 sw') /\ kept (set_loops l0 sw) (set_loops l0 sw') /\
    exists new, ps_lines sw' = ps_lines sw ++ new /\
      (full (w_width wo) new -> forall sr, ldel v (ps_loops sr) = l0 -> instep s L O T (set_loops l0 sw) (set_loops l0 sr) ->
       at_lines new (ps_lines sr) (ps_ofs sr) ->
       exists sr', iterate v is_ mr sr = (Ok tt, sr') /\ ldel v (ps_loops sr') = l0 /\
         instep s L O T (set_loops l0 sw') (set_loops l0 sr') /\ kept (set_loops l0 sr) (set_loops l0 sr') /\
         ps_lines sr' = ps_lines sr /\ ps_ofs sr' = (ps_ofs sr + length new)%nat /\ grows sr sr' /\
         forall E sE, drops D E -> holds E sr' -> ldel v (ps_loops sE) = l0 -> ProofRound2.wst G E s L (set_loops l0 sE) ->
           aligned (set_loops l0 sw) (set_loops l0 sE) ->
           exists sE', iterate v is_ mw sE = (Ok tt, sE') /\ ldel v (ps_loops sE') = l0 /\ ProofRound2.wst G E s L (set_loops l0 sE') /\
             kept (set_loops l0 sE) (set_loops l0 sE') /\ ps_lines sE' = ps_lines sE ++ new).
  Proof.
    intros N Nv S. induction is_ as [|i is_ IH]; intros sw sw' E W H.
    - injection H as <-. split; [exact E|]. split; [exact W|]. split; [apply kept_refl|]. exists []. split; [now rewrite app_nil_r|].
      intros _ sr Er I _. exists sr. split; [reflexivity|]. split; [exact Er|]. split; [exact I|]. split; [apply kept_refl|]. split; [reflexivity|].
      split; [cbn [length]; lia|]. split; [apply grows_refl|]. intros Ed sE _ _ El WE _. exists sE. split; [reflexivity|].
      split; [exact El|]. split; [exact WE|]. split; [apply kept_refl|now rewrite app_nil_r].
    - cbn [iterate] in H. apply mbind_ok in H as (x & sa & Ha & H). apply mbind_ok in H as (y & sb & Hb & H).
      unfold modify in Ha. injection Ha as _ <-. rewrite E in Hb. destruct y.
      destruct (S _ _ (w_enter _ _ _ _ _ i _ W N) Hb) as (W1 & K1 & n1 & E1 & R1).
      assert (Eb : ldel v (ps_loops sb) = l0) by (rewrite (kp_loops _ _ K1); apply ldel_head).
      destruct (IH _ _ Eb (w_exit _ _ _ _ _ _ _ W W1) H) as (E2 & W2 & K2 & n2 & En2 & R2).
      split; [exact E2|]. split; [exact W2|]. split; [eapply kept_trans; [eapply kept_exit; exact K1|exact K2]|].
      exists (n1 ++ n2). split; [rewrite En2, E1; cbn [set_loops ps_lines]; now rewrite app_assoc|].
      intros F sr Er I A. apply Forall_app in F as [F1 F2]. apply at_lines_app in A as [A1 A2].
      destruct (R1 F1 _ (r_enter _ _ _ _ i _ _ _ _ I N) A1) as (sr1 & H1 & I1 & Kr1 & El1 & Eo1 & G1 & Th1).
      assert (Er1 : ldel v (ps_loops sr1) = l0) by (rewrite (kp_loops _ _ Kr1); apply ldel_head).
      cbn [set_loops ps_lines ps_ofs] in El1, Eo1.
      destruct (R2 F2 sr1 Er1) as (sr2 & H2 & Er2 & I2 & Kr2 & El2 & Eo2 & G2 & Th2).
      { eapply r_exit; [exact I|exact I1|exact (kp_up _ _ Kr1)|exact G1]. }
      { now rewrite El1, Eo1. }
      exists sr2. split; [|split; [exact Er2|split; [exact I2|split; [|split; [congruence|split; [rewrite Eo2, Eo1, app_length; lia|split]]]]]].
      + cbn [iterate]. unfold mbind at 1, modify. rewrite Er. unfold mbind at 1. rewrite H1. exact H2.
      + eapply kept_trans; [eapply kept_exit; exact Kr1|exact Kr2].
      + eapply grows_trans; [exact G1|exact G2].
      + intros Ed sE DE Ho El WE [AE1 AE2].
        destruct (Th1 Ed (set_loops ((v, i) :: l0) sE) DE (holds_grows _ _ _ G2 Ho) (w_enter _ _ _ _ _ i _ WE N)) as (sE1 & M1 & WE1 & KE1 & LE1).
        { split; [reflexivity|exact AE2]. }
        assert (El' : ldel v (ps_loops sE1) = l0) by (rewrite (kp_loops _ _ KE1); apply ldel_head).
        destruct (Th2 Ed sE1 DE Ho El' (w_exit _ _ _ _ _ _ _ WE WE1)) as (sE2 & M2 & El2' & WE2 & KE2 & LE2).
        { split; [reflexivity|]. cbn [set_loops ps_up]. rewrite (kp_up _ _ K1), (kp_up _ _ KE1). exact AE2. }
        exists sE2. split; [|split; [exact El2'|split; [exact WE2|split]]].
        * cbn [iterate]. unfold mbind at 1, modify. rewrite El. unfold mbind at 1. rewrite M1. exact M2.
        * eapply kept_trans; [eapply kept_exit; exact KE1|exact KE2].
        * rewrite LE2, LE1. cbn [set_loops ps_lines]. now rewrite app_assoc.
  Qed.

  Lemma eval_ctl_ok en e st v st' : eval_ctl en e st = (Ok v, st') -> st' = st /\ eval_known (e_depth en) (scope_of st) true true e = Ok v.
  Proof. unfold eval_ctl. intros H. split; [now injection H as _ <-|exact (f_equal fst H)]. Qed.
  Lemma lift_ok {A} (r : result A) st a st' : lift r st = (Ok a, st') -> r = Ok a /\ st' = st.
  Proof. unfold lift. intros H. injection H as -> <-. auto. Qed.

  Lemma sim_loop s L O T T' v a b mw mr : control G L ((s, T) :: O) a = true -> control G L ((s, T) :: O) b = true -> new_loop G s L v = true ->
    sim s (v :: L) O T T' mw mr -> sim s L O T T (cycle_for_loop EW v a b mw) (cycle_for_loop ER v a b mr).
  Proof.
    intros Ca Cb NL S sw sw' W H. unfold new_loop in NL. apply andb_true_iff in NL as [N _]. apply negb_true_iff in N.
    unfold cycle_for_loop in H. apply mbind_ok in H as (va & x & Ha & H). apply eval_ctl_ok in Ha as [-> Ha].
    apply mbind_ok in H as (vb & x & Hb & H). apply eval_ctl_ok in Hb as [-> Hb].
    apply mbind_ok in H as (za & x & Hza & H). apply lift_ok in Hza as [Hza ->].
    apply mbind_ok in H as (zb & x & Hzb & H). apply lift_ok in Hzb as [Hzb ->].
    destruct (lget v (ps_loops sw)) eqn:Nv; [discriminate|].
    apply mbind_ok in H as (u & s1 & Hi & H). destruct u.
    assert (Same : forall st, set_loops (ps_loops st) st = st) by (intros []; reflexivity).
    set (l0 := ps_loops sw) in *.
    assert (W0 : wst s L (set_loops l0 sw)) by (unfold l0; now rewrite Same).
    destruct (sim_iter _ _ _ _ _ _ l0 _ _ N Nv S _ _ _ (ldel_none _ _ Nv) W0 Hi) as (E1 & W1 & K1 & new & En & R).
    (* what is left of the loop variables *)
    assert (Left : forall st, ldel v (ps_loops st) = l0 -> forall en (m : M unit) st0, iterate v (zrange za zb) m st0 = (Ok tt, st) ->
      lget v (ps_loops st0) = None -> ps_loops st0 = l0 -> en = tt ->
      (if za <=? zb then modify (fun s => set_loops (ldel v (ps_loops s)) s) else ret tt) st = (Ok tt, set_loops l0 st)).
    { intros st El _ m st0 Hit N0 E0 _. destruct (za <=? zb) eqn:Q.
      - unfold modify. now rewrite El.
      - unfold zrange in Hit. replace (Z.to_nat (zb + 1 - za)) with 0%nat in Hit by lia. injection Hit as <-. rewrite <- E0, Same. reflexivity. }
    rewrite (Left _ E1 tt _ _ Hi Nv eq_refl eq_refl) in H. injection H as <-. rewrite (Same sw : set_loops l0 sw = sw) in K1.
    split; [exact W1|]. split; [exact K1|]. exists new. split; [exact En|]. intros F sr I A.
    pose proof (is_al _ _ _ _ _ _ _ _ _ _ I) as [AL _]. fold l0 in AL.
    assert (Nvr : lget v (ps_loops sr) = None) by now rewrite <- AL.
    destruct (R F sr) as (sr1 & Hr & Er & I1 & Kr & El & Eo & Gr & Th).
    { rewrite ldel_none by exact Nvr. now symmetry. }
    { rewrite (Same sw : set_loops l0 sw = sw), AL, Same. exact I. }
    { exact A. }
    exists (set_loops l0 sr1). split; [|split; [exact I1|split; [|split; [exact El|split; [exact Eo|split; [exact Gr|]]]]]].
    - assert (Ctl : forall e ve, control G L ((s, T) :: O) e = true -> eval_known (e_depth EW) (scope_of sw) true true e = Ok ve ->
        eval_ctl ER e sr = (Ok ve, sr)).
      { intros e ve Ce He. unfold eval_ctl. change (e_depth ER) with depth. rewrite <- (control_eval wo ro depth G GG D CD _ _ _ _ _ _ _ W I Ce).
        change (e_depth EW) with depth in He. now rewrite He. }
      unfold cycle_for_loop. unfold mbind at 1. rewrite (Ctl _ _ Ca Ha). unfold mbind at 1. rewrite (Ctl _ _ Cb Hb).
      unfold mbind at 1, lift. rewrite Hza. unfold mbind at 1. rewrite Hzb.
      rewrite Nvr. unfold mbind at 1. rewrite Hr. eapply Left; eauto.
    - rewrite AL, Same in Kr. rewrite AL. exact Kr.
    - intros Ed sE DE Ho WE AE. pose proof AE as [AE1 AE2]. fold l0 in AE1.
      assert (NvE : lget v (ps_loops sE) = None) by now rewrite <- AE1.
      assert (HoE : holds Ed sr) by (eapply holds_grows; [exact Gr|exact Ho]).
      pose proof (third_instep wo ro G D Ed DE _ _ _ _ _ _ _ I AE HoE) as IE.
      assert (Ctl : forall e ve, control G L ((s, T) :: O) e = true -> eval_known (e_depth EW) (scope_of sw) true true e = Ok ve ->
        eval_ctl EW e sE = (Ok ve, sE)).
      { intros e ve Ce He. unfold eval_ctl. change (e_depth EW) with depth.
        rewrite (control_eval wo ro depth G GG Ed (drops_conforms wo ro G D CD Ed DE) _ _ _ _ _ _ _ WE IE Ce).
        rewrite <- (control_eval wo ro depth G GG D CD _ _ _ _ _ _ _ W I Ce).
        change (e_depth EW) with depth in He. now rewrite He. }
      destruct (Th Ed sE DE Ho) as (sE1 & M1 & El1 & WE1 & KE1 & LE1).
      { rewrite ldel_none by exact NvE. now symmetry. }
      { rewrite AE1, Same. exact WE. }
      { split; [reflexivity|exact AE2]. }
      exists (set_loops l0 sE1). split; [|split; [exact WE1|split; [|exact LE1]]].
      + unfold cycle_for_loop. unfold mbind at 1. rewrite (Ctl _ _ Ca Ha). unfold mbind at 1. rewrite (Ctl _ _ Cb Hb).
        unfold mbind at 1, lift. rewrite Hza. unfold mbind at 1. rewrite Hzb.
        rewrite NvE. unfold mbind at 1. rewrite M1. eapply Left; eauto.
      + rewrite AE1, Same in KE1. rewrite AE1. exact KE1.
  Qed.
End Loops.
