(** C31: the SEND record and whole sections. *)
From Coq Require Import Ascii String ZArith Bool Lia List.
From Coq Require Import Floats.SpecFloat.
From Verif Require Import PyBase PyFloat ModelFortran ModelRecords ModelNum ModelRecipe ModelInterp.
From Verif Require Import SpecFields SpecLibm SpecTape SpecInterp SpecRound ProofPyBase ProofFields ProofRecords ProofTape ProofTapeWrite.
From Verif Require Import ProofInterp ProofInterpFrame ProofInterpCtl ProofInterpSec ProofInterpWrite.
From Verif Require Import ProofRound1 ProofRound2 ProofRound3 ProofRound4 ProofThird ProofRound5 ProofRound6 ProofRound7 ProofRound8 ProofLook ProofRecipe.
Import ListNotations.
Open Scope Z_scope.

(** ** The SEND record *)

Lemma send_text ro wo zab c : field_width wo -> r_width ro = w_width wo -> ctrl_fits c -> MT c = 0 ->
  exists z, zerostr_fields wo zab = Ok z /\ length z = (6 * w_width wo)%nat /\
    forall suf, end_record ro (z ++ write_ctrl c ++ suf) (MAT c) (MF c).
Proof.
  intros W Rw Cf M0. destruct (zerostr_ok wo zab W) as (a & b & E & La & Lb & Rb & Ra).
  set (fs := [a; a; b; b; b; b]) in *. exists (concat fs). split; [exact E|].
  assert (Wd : widths (w_width wo) fs) by (unfold widths, fs; repeat constructor; auto).
  assert (Lz : length (concat fs) = (6 * w_width wo)%nat) by (rewrite (length_concat_widths _ _ Wd); reflexivity).
  split; [exact Lz|]. intros suf. destruct (Ra ro Rw) as (v & Rv & Zv).
  assert (FI : forall i f, nth_error fs i = Some f -> field (r_width ro) i (concat fs ++ write_ctrl c ++ suf) = f).
  { intros i f Hi. rewrite Rw. now apply field_concat. }
  unfold end_record. split; [|split; [|split; [|split; [|split; [|split; [|split]]]]]].
  - apply write_ctrl_not_blank.
  - apply carries_iff. rewrite read_ctrl_write by (auto; lia). destruct c; cbn in *; subst; reflexivity.
  - apply real_zero_iff. exists v. rewrite (FI 0%nat a) by reflexivity. auto.
  - apply real_zero_iff. exists v. rewrite (FI 1%nat a) by reflexivity. auto.
  - apply int_zero_iff. now rewrite (FI 2%nat b).
  - apply int_zero_iff. now rewrite (FI 3%nat b).
  - apply int_zero_iff. now rewrite (FI 4%nat b).
  - apply int_zero_iff. now rewrite (FI 5%nat b).
Qed.

Lemma zeros_fine wo ro : field_width wo -> r_width ro = w_width wo -> zeros_ok wo ro.
Proof.
  intros W Rw. destruct (zero_text_ok wo W) as (E & L & R). intros n Hn.
  exists (if r_preserve ro then NEndf (S754_zero false) (zero_text wo) else NFlt (S754_zero false)).
  assert (F : float2fortstr wo n = Ok (zero_text wo)).
  { destruct n as [z|f|f t]; cbn [zero_lit] in Hn; try discriminate.
    - apply Z.eqb_eq in Hn. subst. exact E.
    - destruct f as [[]| | |]; try discriminate. unfold zero_text.
      assert (Q : float2fortstr wo (NFlt (S754_zero false)) = float2fortstr wo (NInt 0)) by reflexivity.
      rewrite Q, E. reflexivity. }
  split; [split|].
  - exists (zero_text wo). auto.
  - destruct (r_preserve ro); reflexivity.
  - destruct n as [z|f|f t]; cbn [zero_lit] in Hn; try discriminate.
    + apply Z.eqb_eq in Hn. subst. destruct (r_preserve ro); reflexivity.
    + destruct f as [[]| | |]; try discriminate. destruct (r_preserve ro); reflexivity.
Qed.

Section Whole.
  Variable wo : wopts.
  Variable ro : ropts.
  Variable blank : bool.
  Variable depth : nat.
  Variable G : schema.
  Hypothesis GG : good_schema G.
  Variable D : dict.
  Hypothesis CD : conforms wo ro G D.
  Hypothesis FW : field_width wo.
  Hypothesis RW : r_width ro = w_width wo.

  Let EW := write_env ro wo blank depth.
  Let ER := read_env ro wo depth.

  Lemma same_w : same_width wo ro. Proof. split; [exact RW|]. unfold field_width in FW. lia. Qed.

  Lemma send_rt sw sw' : do_send EW sw = (Ok tt, sw') -> exists c l,
    sw' = ModelInterp.add_lines [l] sw /\ the_ctrl sw = Ok c /\
    (length l = (6 * w_width wo + 9 + (if w_linenum wo then 5 else 0))%nat -> forall sr,
     at_lines [l] (ps_lines sr) (ps_ofs sr) -> exists sr', do_send ER sr = (Ok tt, sr') /\ ps_dic sr' = ps_dic sr /\
       ps_up sr' = ps_up sr /\ ps_opts sr' = ps_opts sr) /\
    forall sE, the_ctrl sE = Ok c -> do_send EW sE = (Ok tt, ModelInterp.add_lines [l] sE).
  Proof.
    intros H. unfold do_send in H. cbn [e_write EW write_env] in H. unfold write_with in H.
    change (e_wo EW) with wo in H. change (e_blank EW) with blank in H.
    destruct (the_ctrl sw) as [c|] eqn:C; [|discriminate H]. cbn [bind] in H.
    unfold write_send, write_end in H. destruct (zerostr_ok wo blank FW) as (fa & fb & Ez & La & Lb & _).
    rewrite Ez in H. cbn [bind] in H. injection H as <-.
    set (z := concat [fa; fa; fb; fb; fb; fb]) in *. set (c0 := {| MAT := MAT c; MF := MF c; MT := 0 |}).
    exists c, (z ++ write_ctrl c0 ++ (if w_linenum wo then $"99999" else [])).
    split; [reflexivity|]. split; [reflexivity|]. split.
    2: { intros sE CE. unfold do_send. cbn [e_write EW write_env]. unfold write_with. change (e_wo EW) with wo. change (e_blank EW) with blank.
         rewrite CE. cbn [bind]. unfold write_send, write_end. rewrite Ez. reflexivity. }
    intros Len sr A.
    assert (Lz : length z = (6 * w_width wo)%nat).
    { unfold z. cbn [concat]. rewrite app_nil_r, !app_length, La, Lb. lia. }
    assert (Cf : ctrl_fits c0).
    { apply length_write_ctrl_iff. rewrite !app_length, Lz in Len. change (length $"99999") with 5%nat in Len.
      destruct (w_linenum wo); [change (length $"99999") with 5%nat in Len|cbn [length] in Len]; lia. }
    destruct (send_text ro wo blank c0 FW RW Cf eq_refl) as (z' & Ez' & _ & R). rewrite Ez in Ez'. injection Ez' as <-.
    apply at_lines_cons in A as [(suf & Gl) _]. rewrite <- !app_assoc in Gl.
    specialize (R ((if w_linenum wo then $"99999" else []) ++ suf)).
    unfold do_send. cbn [e_write ER read_env]. change (e_ro ER) with ro.
    rewrite (skip_here _ _ _ Gl (ctrl_not_blank _ _ _)).
    assert (X : exists x, read_send ro (ps_lines sr) (ps_ofs sr) = Ok x).
    { destruct R as (_ & Ca & R). assert (Y : exists x, read_send ro [z ++ write_ctrl c0 ++ (if w_linenum wo then $"99999" else []) ++ suf] 0 = Ok x).
      { apply read_send_iff. destruct R as (r0 & r1 & r2 & r3 & r4 & r5). repeat (split; [assumption|]). eauto. }
      destruct Y as (y & Y). unfold read_send, read_cont in *. rewrite Gl. unfold get_line in Y. cbn [nth_error bind] in *.
      destruct (read_fort_float ro (field _ 0 _)); [|discriminate]. cbn [bind] in *.
      destruct (read_fort_float ro (field _ 1 _)); [|discriminate]. cbn [bind] in *.
      destruct (read_fort_int (field _ 2 _)); [|discriminate]. cbn [bind] in *.
      destruct (read_fort_int (field _ 3 _)); [|discriminate]. cbn [bind] in *.
      destruct (read_fort_int (field _ 4 _)); [|discriminate]. cbn [bind] in *.
      destruct (read_fort_int (field _ 5 _)); [|discriminate]. cbn [bind] in *.
      destruct (read_ctrl ro _); [|discriminate]. cbn [bind] in *.
      match type of Y with (if ?b then _ else _) = _ => destruct b; [discriminate|eauto] end. }
    destruct X as ([[r cc] o'] & ->). eexists. split; [reflexivity|]. cbn. auto.
  Qed.

  Lemma start_shape o ls d : shape_ok G [] [] (reset_state o ls d).
  Proof.
    constructor; cbn; auto; [constructor|]. intros x. split; [discriminate|]. intros [i H]; discriminate.
  Qed.
  Lemma start_w Q o : wst G Q [] [] (reset_state o [] Q).
  Proof. split; [apply start_shape|]. intros p U. apply shape_refl. Qed.
  Lemma start_r o o' ls : o_all o' = false -> o_fuzzy o' = false ->
    instep wo ro G D [] [] [] [] (reset_state o [] D) (reset_state o' ls []).
  Proof.
    intros A F. constructor.
    - split; [apply start_shape|]. split; [|auto]. intros [|k p] v' U H; [|discriminate H]. cbn in H. injection H as <-.
      exists (VDict D). split; [reflexivity|]. left. split; eexists; reflexivity.
    - split; reflexivity.
    - cbn. repeat split. contradiction.
  Qed.

  Lemma whole_rt b o sw' : readable_recipe G (6 * w_width wo) b = true ->
    run_section EW (then_send b) (reset_state o [] D) = (Ok tt, sw') -> in_columns wo (ps_lines sw') ->
    forall o' lines, o_all o' = false -> o_fuzzy o' = false -> at_lines (ps_lines sw') lines 0 ->
    exists sr', run_section ER (then_send b) (reset_state o' lines []) = (Ok tt, sr') /\
      printed_part wo ro G D (ps_dic sr') /\ ps_opts sr' = o' /\
      forall e o2, drops D e ->
        (forall p v, user_path p -> path_get p (VDict (ps_dic sr')) = Some v -> ~ is_dict v -> path_get p (VDict e) <> None) ->
        exists s2, run_section EW (then_send b) (reset_state o2 [] e) = (Ok tt, s2) /\ ps_lines s2 = ps_lines sw' /\
          forall c, get_ctrl (ps_dic sw') (ps_up sw') = Ok c -> get_ctrl (ps_dic s2) (ps_up s2) = Ok c.
  Proof.
    intros RB H IC o' lines OA OF A. unfold readable_recipe in RB.
    destruct (readable_block G (6 * w_width wo) [] [] [] [] b) as [T'|] eqn:RB'; [clear RB|discriminate RB].
    pose proof (simp_sim _ _ _ _ _ _ _ _ _ _ _ _ (proj1 (proj2 (sim_recipe wo ro blank depth G GG D CD (zeros_fine wo ro FW RW) same_w)) b [] [] [] [] T' RB')) as SIM.
    fold EW ER in SIM.
    unfold run_section in H. apply mbind_ok in H as (x & s1 & H1 & H). unfold modify in H1. injection H1 as _ <-.
    apply mbind_ok in H as (y & s2 & H2 & H). destruct y. set (s1 := set_dic (init_working (ps_dic (reset_state o [] D))) (reset_state o [] D)) in *.
    rewrite then_send_eq in H2 by reflexivity. apply mbind_ok in H2 as (y & s3 & H3 & H4). destruct y.
    assert (W1 : wst G D [] [] s1) by (apply w_working; [apply start_w|intros; now apply init_working_other]).
    destruct (SIM _ _ W1 H3) as (W3 & K3 & new & En & R). change (ps_lines s1) with (@nil str) in En. cbn [app] in En.
    destruct (send_rt _ _ H4) as (c & l & E2 & Hc & Rs & RsE).
    assert (Els : ps_lines sw' = new ++ [l] /\ sw' = set_dic (ddel (KStr $"__startidcs") (ddel (KStr $"__abbrevs") (ps_dic s2))) s2).
    { pose proof K3 as K3'. apply (abbr_names _ _ (init_abbr D : dget abbr_key (ps_dic s1) = _)) in K3'.
      assert (Ab : dget abbr_key (ps_dic s2) = Some (VNames [])) by (rewrite E2; exact K3').
      rewrite (removed _ Ab) in H. injection H as <-. split; [|reflexivity]. cbn [set_dic ps_lines]. rewrite E2. cbn [ModelInterp.add_lines ps_lines]. now rewrite En. }
    destruct Els as [Els Esw]. rewrite Els in *. destruct IC as (body & send & Eb & Fb & Ls). apply app_inj_tail in Eb as [<- <-].
    apply at_lines_app in A as [A1 A2]. cbn [Nat.add] in A2.
    set (r0 := reset_state o' lines []) in *. set (r1 := set_dic (init_working (ps_dic r0)) r0).
    destruct (r_working wo ro G D _ _ _ _ _ s1 r0 (init_working (ps_dic r0)) (start_r o o' lines OA OF)
                (fun k Nk => init_working_other k (ps_dic r0) Nk) eq_refl eq_refl) as [I1 G1].
    destruct (R Fb r1 I1 A1) as (r3 & Hr & I3 & Kr & El & Eo & G3 & Th).
    change (ps_ofs r1) with 0%nat in Eo. cbn [Nat.add] in Eo. change (ps_lines r1) with lines in El.
    destruct (Rs Ls r3) as (r4 & Hs & Ed & Eu & Ep); [rewrite El, Eo; exact A2|].
    pose proof (abbr_names _ _ (init_abbr [] : dget abbr_key (ps_dic r1) = _) Kr) as Abr.
    exists (set_dic (ddel (KStr $"__startidcs") (ddel (KStr $"__abbrevs") (ps_dic r4))) r4). split; [|split; [|split]].
    - unfold run_section. unfold mbind at 1, modify. fold r1. unfold mbind at 1.
      rewrite then_send_eq by reflexivity. unfold mbind at 1. rewrite Hr, Hs. apply removed. now rewrite Ed.
    - cbn [set_dic ps_dic]. destruct (is_rst _ _ _ _ _ _ _ _ _ _ I3) as (S3 & P3 & _).
      assert (Eu3 : ps_up r3 = []) by (rewrite (kp_up _ _ Kr); reflexivity). rewrite Eu3 in P3. cbn [root] in P3. rewrite Ed.
      intros p v' U Hp. destruct p as [|k p].
      + cbn in Hp. injection Hp as <-. exists (VDict D). split; [reflexivity|]. left. split; eexists; reflexivity.
      + apply (P3 (k :: p) v' U). cbn [path_get] in *. inversion U; subst. now rewrite removed_user in Hp.
    - cbn [set_dic ps_opts]. rewrite Ep, (kp_opts _ _ Kr). reflexivity.
    - intros e o2 DE Has. cbn [set_dic ps_dic] in Has. rewrite Ed in Has.
      assert (Eu3 : ps_up r3 = []) by (rewrite (kp_up _ _ Kr); reflexivity).
      assert (Ho : holds e r3).
      { intros p v U Hp Nv. unfold look in Hp. rewrite Eu3 in Hp. cbn [root] in Hp. destruct p as [|k p]; [cbn; discriminate|].
        apply (Has (k :: p) v U); [|exact Nv]. cbn [path_get] in *. inversion U; subst. now rewrite removed_user. }
      set (e1 := set_dic (init_working (ps_dic (reset_state o2 [] e))) (reset_state o2 [] e)).
      assert (We : wst G e [] [] e1) by (apply w_working; [apply start_w|intros; now apply init_working_other]).
      assert (AE : aligned s1 e1) by (split; reflexivity).
      destruct (Th e e1 DE Ho We AE) as (e3 & He & We3 & Ke & Le).
      pose proof (third_ctrl G GG D e DE _ _ _ _ _ W3 We3 (aligned_kept _ _ _ _ AE K3 Ke) Hc) as Ce.
      pose proof (abbr_names _ _ (init_abbr e : dget abbr_key (ps_dic e1) = _) Ke) as Abe.
      exists (set_dic (ddel (KStr $"__startidcs") (ddel (KStr $"__abbrevs") (ps_dic e3))) (ModelInterp.add_lines [l] e3)). split; [|split].
      + unfold run_section. unfold mbind at 1, modify. fold e1. unfold mbind at 1.
        rewrite then_send_eq by reflexivity. unfold mbind at 1. rewrite He, (RsE _ Ce). exact (removed (ModelInterp.add_lines [l] e3) Abe).
      + cbn [set_dic ModelInterp.add_lines ps_lines]. rewrite Le. reflexivity.
      + assert (Gc : forall q, get_ctrl (ddel (KStr $"__startidcs") (ddel (KStr $"__abbrevs") q)) [] = get_ctrl q []).
        { assert (Cd : forall q, ctrl_dic q [] = q) by (intros q; rewrite ctrl_dic_eq3; now destruct (dget (KStr $"MAT") q)).
          intros q. unfold get_ctrl. rewrite !Cd. cbv zeta. rewrite !(removed_user q); [reflexivity| | |]; intros [X|[X|X]]; discriminate X. }
        intros c' Hc'. rewrite Esw in Hc'. cbn [set_dic ModelInterp.add_lines ps_dic ps_up] in Hc' |- *.
        assert (U2 : ps_up s2 = []) by (rewrite E2; cbn [ModelInterp.add_lines ps_up]; rewrite (kp_up _ _ K3); reflexivity).
        assert (U3 : ps_up e3 = []) by (rewrite (kp_up _ _ Ke); reflexivity).
        assert (U1 : ps_up s3 = []) by (rewrite (kp_up _ _ K3); reflexivity).
        rewrite U2, Gc in Hc'. rewrite U3, Gc. unfold the_ctrl in Hc, Ce. rewrite U1 in Hc. rewrite U3 in Ce. rewrite E2 in Hc'.
        cbn [ModelInterp.add_lines ps_dic] in Hc'. congruence.
  Qed.
End Whole.

(** ** MF and MT *)

Lemma default_put k z d : fst (set_ctrl_default k z d) = put_missing k z d.
Proof. unfold set_ctrl_default, put_missing. now destruct (dget (KStr k) d). Qed.

Lemma conforms_put wo ro G x z d : G [] x = Some IntV -> Z.abs z <= 2 ^ 53 -> conforms wo ro G d -> conforms wo ro G (put_missing x z d).
Proof.
  intros Gx B C. unfold put_missing. destruct (dget (KStr x) d) as [v0|] eqn:E; [exact C|]. intros [|k p] v U H.
  - destruct (C [] (VDict d) U eq_refl) as (k & Hk & _). cbn in H. injection H as <-. cbn in Hk. injection Hk as <-.
    exists SecV. split; [reflexivity|]. left. split; [eexists; reflexivity|reflexivity].
  - destruct (key_dec k (KStr x)) as [->|N].
    + cbn [path_get] in H. rewrite dget_dset_same in H. destruct p as [|k p]; [|discriminate H]. cbn [path_get] in H.
      injection H as <-. exists IntV. cbn [kind_at]. rewrite Gx. split; [reflexivity|]. right. now constructor.
    + apply C; [exact U|]. cbn [path_get] in *. rewrite dget_dset_other in H by exact N. exact H.
Qed.
Lemma conforms_numbered wo ro G mf mt d : good_schema G -> Z.abs mf <= 2 ^ 53 -> Z.abs mt <= 2 ^ 53 ->
  conforms wo ro G d -> conforms wo ro G (numbered mf mt d).
Proof. intros (_ & _ & A & B) F T C. apply conforms_put; [exact B|exact T|]. now apply conforms_put. Qed.

Lemma write_inv en explain b o mf mt d lines c d' : write_recipe en explain b o mf mt d = (Ok (lines, c), d') ->
  exists s, run_section en b (reset_state o [] (numbered mf mt d)) = (Ok tt, s) /\ ps_lines s = lines /\ get_ctrl (ps_dic s) (ps_up s) = Ok c /\
    (exists v, dget (KStr $"MF") (numbered mf mt d) = Some v /\ val_eqZ v mf = true) /\
    (exists v, dget (KStr $"MT") (numbered mf mt d) = Some v /\ val_eqZ v mt = true).
Proof.
  assert (V : forall z, val_eqZ (vint z) z = true).
  { intros z. unfold val_eqZ, vint. cbn. now rewrite Z.compare_refl. }
  assert (P : forall x z d0 d1, set_ctrl_default x z d0 = (d1, true) -> exists v, dget (KStr x) d1 = Some v /\ val_eqZ v z = true).
  { intros x z d0 d1 Q. unfold set_ctrl_default in Q. destruct (dget (KStr x) d0) as [v|] eqn:Hx.
    - injection Q as <- Q. eauto.
    - injection Q as <-. rewrite dget_dset_same. eauto. }
  intros H. unfold write_recipe in H. unfold numbered. rewrite <- !default_put.
  destruct (set_ctrl_default $"MF" mf d) as [d1 ok1] eqn:S1. cbn [fst]. destruct ok1; cbn [negb] in H; [|discriminate H].
  destruct (set_ctrl_default $"MT" mt d1) as [d2 ok2] eqn:S2. cbn [fst]. destruct ok2; cbn [negb] in H; [|discriminate H].
  destruct (run_section en b (reset_state o [] d2)) as [r s] eqn:R. destruct (unwind 0 (ps_up s) (ps_dic s)) as [q df].
  destruct r as [[]|e]; [|discriminate H]. exists s. split; [reflexivity|].
  destruct (get_ctrl (ps_dic s) (ps_up s)) as [c0|]; cbn [bind] in H; [|discriminate H]. injection H as <- <- _.
  split; [reflexivity|]. split; [reflexivity|]. split; [|eapply P; exact S2].
  destruct (P _ _ _ _ S1) as (v & Hv & Ev). exists v. split; [|exact Ev]. unfold set_ctrl_default in S2.
  destruct (dget (KStr $"MT") d1); [injection S2 as <- _; exact Hv|injection S2 as <-; now rewrite dget_dset_other by discriminate].
Qed.

Lemma thinned_ctrl r D e x v z : thinned r D e -> ctrl_name x -> dget (KStr x) D = Some v -> val_eqZ v z = true -> dget (KStr x) e = Some v.
Proof.
  intros T C H V. assert (U : user_path [KStr x]).
  { apply (user_str x []). intros [X|[X|X]]; destruct C as [Y|[Y|Y]]; rewrite Y in X; discriminate. }
  rewrite <- path_one. rewrite <- path_one in H. destruct (T _ U) as [E|[(a & b & _ & E)|(_ & _ & _ & N)]].
  - now rewrite E.
  - rewrite E in H. injection H as <-. discriminate V.
  - destruct (N [] x eq_refl C).
Qed.
Lemma thinned_drops r D e : thinned r D e -> drops D e.
Proof.
  intros T p U. destruct (T p U) as [E|[(a & b & E1 & E2)|(E & _ & X & N)]]; [left; left; exact E|left; right; eauto|right]. auto.
Qed.

Lemma write_same en explain b o mf mt e s v w c : dget (KStr $"MF") e = Some v -> val_eqZ v mf = true -> dget (KStr $"MT") e = Some w -> val_eqZ w mt = true ->
  run_section en b (reset_state o [] e) = (Ok tt, s) -> get_ctrl (ps_dic s) (ps_up s) = Ok c ->
  exists e', write_recipe en explain b o mf mt e = (Ok (ps_lines s, c), e').
Proof.
  intros H1 V1 H2 V2 R C. unfold write_recipe, set_ctrl_default. rewrite H1, V1. cbn [negb]. rewrite H2, V2. cbn [negb]. rewrite R.
  destruct (unwind 0 (ps_up s) (ps_dic s)) as [q df]. rewrite C. cbn [bind]. eauto.
Qed.

Theorem round_trip wo ro blank depth G b explain o mf mt d lines c d' :
  field_width wo -> r_width ro = w_width wo -> good_schema G -> readable_recipe G (6 * w_width wo) b = true ->
  conforms wo ro G d -> Z.abs mf <= 2 ^ 53 -> Z.abs mt <= 2 ^ 53 ->
  write_recipe (write_env ro wo blank depth) explain (then_send b) o mf mt d = (Ok (lines, c), d') ->
  in_columns wo lines ->
  forall o' tape, o_all o' = false -> o_fuzzy o' = false -> at_lines lines tape 0 ->
  exists r, parse_recipe (read_env ro wo depth) (then_send b) o' tape = (Ok r, o') /\
    printed_part wo ro G (numbered mf mt d) r /\
    forall e, thinned r (numbered mf mt d) e ->
      exists e', write_recipe (write_env ro wo blank depth) explain (then_send b) o mf mt e = (Ok (lines, c), e').
Proof.
  intros FW RW GG RB C F T H IC o' tape OA OF A. apply write_inv in H as (s & H & <- & Hc & (v & Hv & Ev) & (w & Hw & Ew)).
  destruct (whole_rt wo ro blank depth G GG (numbered mf mt d) (conforms_numbered _ _ _ _ _ _ GG F T C) FW RW b o s RB H IC o' tape OA OF A)
    as (sr & Hr & P & Eo & Th).
  exists (ps_dic sr). split; [|split; [exact P|]].
  - unfold parse_recipe. rewrite Hr, Eo. reflexivity.
  - intros e Te. destruct (Th e o (thinned_drops _ _ _ Te)) as (s2 & H2 & L2 & C2).
    { intros p u U Hp Nu. destruct (P p u U Hp) as (u' & Hu' & X). destruct (Te p U) as [E|[(x & y & E & _)|(_ & N & _)]].
      - rewrite E, Hu'. discriminate.
      - rewrite E. discriminate.
      - congruence. }
    rewrite <- L2. eapply write_same; [eapply thinned_ctrl; [exact Te| |exact Hv|exact Ev]|exact Ev|eapply thinned_ctrl; [exact Te| |exact Hw|exact Ew]|exact Ew|exact H2|now apply C2];
      unfold ctrl_name; auto.
Qed.
