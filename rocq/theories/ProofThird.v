(** C31: writing from a dictionary with fewer values. *)
From Coq Require Import Ascii String ZArith Bool Lia List.
From Coq Require Import Floats.SpecFloat.
From Verif Require Import PyBase PyFloat ModelFortran ModelRecords ModelNum ModelRecipe ModelInterp.
From Verif Require Import SpecFields SpecInterp SpecRound ProofPyBase.
From Verif Require Import ProofInterp ProofInterpFrame ProofInterpCtl ProofInterpSec ProofInterpWrite.
From Verif Require Import ProofRound1 ProofRound2 ProofRound3 ProofRound4.
Import ListNotations.
Open Scope Z_scope.

Ltac binv3 H a :=
  match type of H with
  | bind ?m _ = Ok _ => let E := fresh "E" in destruct m as [a|] eqn:E; cbn [bind] in H; [|discriminate H]
  end.

(** [e] is [d] without some values, but with the control numbers *)
Definition drops (d e : dict) : Prop :=
  forall p, user_path p -> same_shape (path_get p (VDict e)) (path_get p (VDict d)) \/
    (path_get p (VDict e) = None /\ (exists v, path_get p (VDict d) = Some v /\ ~ is_dict v) /\
     forall q x, p = q ++ [KStr x] -> ~ ctrl_name x).
(** [e] has what the reader has *)
Definition holds (e : dict) (sr : pstate) : Prop :=
  forall p v, user_path p -> look sr p = Some v -> ~ is_dict v -> path_get p (VDict e) <> None.

Lemma holds_grows e a b : grows a b -> holds e b -> holds e a.
Proof. intros Gr H p v U L N. destruct (Gr p v U L N) as (v' & L' & N'). exact (H p v' U L' N'). Qed.

Lemma dset_id k v d : dget k d = Some v -> dset k v d = d.
Proof.
  induction d as [|[k' v'] d IH]; cbn [dset dget]; [discriminate|]. destruct (key_eqb k k'); [now intros H; injection H as ->|].
  intros H. now rewrite IH.
Qed.
Lemma open_existing name ks : forall cur d, path_get ks cur = Some (VDict d) -> open_path false name ks cur = Ok (d, cur).
Proof.
  induction ks as [|k ks IH]; intros cur d H; cbn [open_path path_get] in *.
  - injection H as ->. reflexivity.
  - destruct cur; try discriminate. destruct (dget k d0) as [o|] eqn:Q; [|discriminate]. rewrite (IH _ _ H). cbn [bind].
    rewrite dset_id by exact Q. reflexivity.
Qed.

Lemma as_Z_inv v t : as_Z v = Ok t -> v = vint t.
Proof. destruct v as [[| |]| | | | | | |]; intros Q; try discriminate. now injection Q as ->. Qed.
Lemma get_ctrl_inv d up c : get_ctrl d up = Ok c ->
  dget (KStr $"MAT") (ctrl_dic d up) = Some (vint (MAT c)) /\ dget (KStr $"MF") (ctrl_dic d up) = Some (vint (MF c)) /\
  dget (KStr $"MT") (ctrl_dic d up) = Some (vint (MT c)).
Proof.
  unfold get_ctrl. cbv zeta. destruct (dget _ (ctrl_dic d up)) as [a|]; [|discriminate].
  destruct (dget (KStr $"MF") _) as [b|]; [|discriminate]. destruct (dget (KStr $"MT") _) as [e|]; [|discriminate].
  intros H. binv3 H x. binv3 H y. binv3 H z. injection H as <-. cbn [MAT MF MT].
  now rewrite (as_Z_inv _ _ E), (as_Z_inv _ _ E0), (as_Z_inv _ _ E1).
Qed.

Lemma ctrl_dic_eq3 d up : ctrl_dic d up = match dget (KStr $"MAT") d with Some _ => d | None => match up with [] => d | f :: fs => ctrl_dic (outer f d) fs end end.
Proof. destruct up; reflexivity. Qed.

Lemma ctrl_third G (GG : good_schema G) : forall up d up' d', opened up -> opened up' -> sec_frames G up -> map frame_keys up = map frame_keys up' ->
  (forall p x, user_path p -> ctrl_name x -> same_shape (path_get (p ++ [KStr x]) (VDict (root up' d'))) (path_get (p ++ [KStr x]) (VDict (root up d)))) ->
  forall x, ctrl_name x -> same_shape (dget (KStr x) (ctrl_dic d' up')) (dget (KStr x) (ctrl_dic d up)).
Proof.
  induction up as [|f fs IH]; intros d up' d' O O' S Ek H x Cx; rewrite (ctrl_dic_eq3 d), (ctrl_dic_eq3 d').
  - destruct up'; [|discriminate].
    assert (Z : forall (o : option val), match o with Some _ => d | None => d end = d) by (now intros []).
    assert (Z' : forall (o : option val), match o with Some _ => d' | None => d' end = d') by (now intros []).
    rewrite Z, Z'. rewrite <- (path_one (KStr x) d), <- (path_one (KStr x) d'). apply (H [] x); [constructor|exact Cx].
  - destruct up' as [|f' fs']; [discriminate|].
    assert (X : forall x, ctrl_name x -> same_shape (dget (KStr x) d') (dget (KStr x) d)).
    { intros y Cy. rewrite (root_dget (f :: fs) d), (root_dget (f' :: fs') d') by assumption.
      rewrite <- (pre_keys _ _ Ek). apply H; [now apply (user_pre G GG)|exact Cy]. }
    destruct (X $"MAT") as [E|(e & e' & E1 & E2)]; [now left| |].
    + rewrite E. destruct (dget (KStr $"MAT") d); [now apply X|]. inversion O; inversion O'; subst. destruct S as [_ S].
      injection Ek as _ _ Ek. apply IH; auto.
    + rewrite E1, E2. now apply X.
Qed.

Section Third.
  Variable wo : wopts.
  Variable ro : ropts.
  Variable blank : bool.
  Variable depth : nat.
  Variable G : schema.
  Hypothesis GG : good_schema G.
  Variable D : dict.
  Hypothesis CD : conforms wo ro G D.
  Variable E : dict.
  Hypothesis DE : drops D E.

  Let EW := write_env ro wo blank depth.

  Lemma drops_leaf p v : user_path p -> path_get p (VDict D) = Some v -> ~ is_dict v -> path_get p (VDict E) <> None -> path_get p (VDict E) = Some v.
  Proof.
    intros U H N NE. destruct (DE p U) as [S|(X & _)]; [|contradiction]. eapply shape_leaf; [apply shape_sym; exact S|exact H|exact N].
  Qed.
  Lemma drops_dict p d : user_path p -> path_get p (VDict D) = Some (VDict d) -> exists e, path_get p (VDict E) = Some (VDict e).
  Proof.
    intros U H. destruct (DE p U) as [S|(_ & (v & Hv & Nv) & _)].
    - eapply shape_dict; [apply shape_sym; exact S|exact H].
    - rewrite H in Hv. injection Hv as <-. destruct Nv. eexists; reflexivity.
  Qed.
  Lemma drops_conforms : conforms wo ro G E.
  Proof.
    intros p v U H. destruct (DE p U) as [[S|(d & d' & X & Y)]|(X & _)]; [| |congruence].
    - rewrite H in S. symmetry in S. exact (CD p v U S).
    - rewrite X in H. injection H as <-. destruct (CD p _ U Y) as (k & K & [[_ Sc]|Pb]).
      + exists k. split; [exact K|]. left. split; [eexists; reflexivity|exact Sc].
      + destruct (printable_leaf _ _ _ _ Pb). eexists; reflexivity.
  Qed.

  (** ** Fields *)

  Lemma known_vars s L T e : known G s L T e = true -> forall x ix, In (x, ix) (vars_of e) ->
    (is_loop L x = true /\ no_name G s x = true) \/ (is_loop L x = false /\ In (x, ix) T /\ exists k, G s x = Some k).
  Proof.
    assert (V : forall x ix, (if is_loop L x then no_name G s x else mem (x, ix) T && field_var G s L IntV (x, ix)) = true ->
      (is_loop L x = true /\ no_name G s x = true) \/ (is_loop L x = false /\ In (x, ix) T /\ exists k, G s x = Some k)).
    { intros x ix H. destruct (is_loop L x); [left; auto|right]. apply andb_true_iff in H as [M F]. split; [reflexivity|]. split; [now apply mem_In|].
      apply field_var_iff in F as (_ & _ & KK & K & _). eauto. }
    induction e; cbn [known vars_of]; intros H y iy Iy.
    1, 2: destruct Iy as [Q|[]]; injection Q as <- <-; now apply V.
    1: destruct Iy. 1: now apply IHe.
    all: try discriminate; apply andb_true_iff in H as [Ha Hb]; apply in_app_or in Iy as [Iy|Iy]; auto.
  Qed.
  Lemma linear_vars s L T e : forall u, linear G s L T e = Some u -> forall x ix, In (x, ix) (vars_of e) ->
    (is_loop L x = true /\ no_name G s x = true) \/ (is_loop L x = false /\ In (x, ix) (u :: T) /\ exists k, G s x = Some k).
  Proof.
    assert (Wk : forall u x ix, ((is_loop L x = true /\ no_name G s x = true) \/ (is_loop L x = false /\ In (x, ix) T /\ exists k, G s x = Some k)) ->
      (is_loop L x = true /\ no_name G s x = true) \/ (is_loop L x = false /\ In (x, ix) (u :: T) /\ exists k, G s x = Some k)).
    { intros u x ix [H|(A & B & C)]; [now left|right]. split; [exact A|]. split; [now right|exact C]. }
    assert (V : forall x ix u, (if field_var G s L IntV (x, ix) then Some (x, ix) else None) = Some u ->
      (is_loop L x = true /\ no_name G s x = true) \/ (is_loop L x = false /\ In (x, ix) (u :: T) /\ exists k, G s x = Some k)).
    { intros x ix u H. destruct (field_var G s L IntV (x, ix)) eqn:F; [|discriminate]. injection H as <-.
      apply field_var_iff in F as (N & _ & KK & K & _). right. split; [exact N|]. split; [now left|eauto]. }
    induction e; cbn [linear vars_of]; intros u H y iy Iy; try discriminate.
    1, 2: destruct Iy as [Q|[]]; injection Q as <- <-; now apply V.
    1: now apply IHe.
    1, 2: destruct (known G s L T e2) eqn:K2; [|destruct (known G s L T e1) eqn:K1; [|discriminate]]; apply in_app_or in Iy as [Iy|Iy];
      eauto using known_vars.
    assert (Fa : forall e, factor G s L T e = true -> In (y, iy) (vars_of e) ->
      (is_loop L y = true /\ no_name G s y = true) \/ (is_loop L y = false /\ In (y, iy) (u :: T) /\ exists k, G s y = Some k)).
    { intros e F Ie. apply orb_prop in F as [F|F]; [destruct e; try discriminate; destruct Ie|].
      apply andb_true_iff in F as [F _]. eauto using known_vars. }
    destruct (factor G s L T e2) eqn:N2; [|destruct (factor G s L T e1) eqn:N1; [|discriminate]]; apply in_app_or in Iy as [Iy|Iy]; eauto.
  Qed.

  Lemma slot_mono s L T k e T' : slot G s L T k e = Some T' -> forall t, In t T -> In t T'.
  Proof.
    intros H t I. destruct k; cbn [slot] in H; try discriminate.
    - destruct (known G s L T e); [injection H as <-; exact I|]. destruct (linear G s L T e); [|discriminate]. injection H as <-. now right.
    - destruct e; try discriminate; try (destruct (field_var G s L FltV _); [|discriminate]; injection H as <-; now right).
      destruct (zero_lit v); [|discriminate]. injection H as <-. exact I.
    - destruct e; try discriminate. destruct (field_var G s L IntL _); [|discriminate]. injection H as <-. now right.
    - destruct e; try discriminate. destruct (field_var G s L FltL _); [|discriminate]. injection H as <-. now right.
  Qed.
  Lemma slots_mono s L l : forall T T', slots G s L T l = Some T' -> forall t, In t T -> In t T'.
  Proof.
    induction l as [|[k e] l IH]; intros T T' H t I; cbn [slots] in H; [injection H as <-; exact I|].
    destruct (slot G s L T k e) as [T1|] eqn:S; [|discriminate]. eapply IH; [exact H|]. eapply slot_mono; eauto.
  Qed.
  Lemma slot_vars s L T k e T' : slot G s L T k e = Some T' -> forall x ix, In (x, ix) (vars_of e) ->
    (is_loop L x = true /\ no_name G s x = true) \/ (is_loop L x = false /\ In (x, ix) T' /\ exists k, G s x = Some k).
  Proof.
    intros H x ix I.
    assert (F1 : forall k y iy T1, (if field_var G s L k (y, iy) then Some ((y, iy) :: T) else None) = Some T1 -> (x, ix) = (y, iy) ->
      (is_loop L x = true /\ no_name G s x = true) \/ (is_loop L x = false /\ In (x, ix) T1 /\ exists k, G s x = Some k)).
    { intros k0 y iy T1 Q X. injection X as <- <-. destruct (field_var G s L k0 (x, ix)) eqn:F; [|discriminate]. injection Q as <-.
      apply field_var_iff in F as (N & _ & KK & K & _). right. split; [exact N|]. split; [now left|eauto]. }
    destruct k; cbn [slot] in H; try discriminate.
    - destruct (known G s L T e) eqn:K; [injection H as <-; eapply known_vars; eauto|].
      destruct (linear G s L T e) as [u|] eqn:Q; [|discriminate]. injection H as <-. eapply linear_vars; eauto.
    - destruct e; try discriminate; cbn [vars_of] in I.
      1, 2: destruct I as [I|[]]; eapply F1; [exact H|now rewrite I].
      destruct I.
    - destruct e; try discriminate. destruct I as [I|[]]; eapply F1; [exact H|now rewrite I].
    - destruct e; try discriminate. destruct I as [I|[]]; eapply F1; [exact H|now rewrite I].
  Qed.

  Lemma third_raw s L sw sE sr x ix : wst G D s L sw -> wst G E s L sE -> aligned sw sE -> rst wo ro G D s L sr -> aligned sw sr -> holds E sr ->
    (is_loop L x = true /\ no_name G s x = true) \/ (is_loop L x = false /\ tok_at sr (pre (ps_up sr)) (x, ix) /\ exists k, G s x = Some k) ->
    get_raw (scope_of sw) false x ix = get_raw (scope_of sE) false x ix /\ forall a, get_raw (scope_of sw) false x ix <> Ok (VExpr a).
  Proof.
    intros W WE [AL AU] R A Ho [[IL NN]|(IL & TK & k & K)].
    - apply no_name_iff in NN as [Ni K]. pose proof W as [S _]. pose proof WE as [SE _].
      destruct (loop_value _ _ _ _ _ S IL) as [i Hi]. pose proof Hi as HiE. rewrite AL in HiE.
      rewrite (get_loop G s L sw false x ix i S Hi); [|eapply w_absent; eauto].
      rewrite (get_loop G s L sE false x ix i SE HiE); [|eapply (w_absent wo ro G GG E drops_conforms); eauto].
      split; [reflexivity|]. intros a; discriminate.
    - pose proof TK as (idcs & v' & Ei & U & Hl & Nv). cbn [fst snd] in *. destruct A as [AL' AU'].
      destruct R as (Sr & P & _). destruct (P _ _ U Hl) as (v & Hv & [[_ X]|(k' & K' & X)]); [destruct (Nv X)|].
      destruct (printed_leaf _ _ _ _ _ X) as [Ndv _].
      assert (HE : path_get (pre (ps_up sr) ++ KStr x :: map KInt idcs) (VDict E) = Some v).
      { apply drops_leaf; [exact U|exact Hv|exact Ndv|]. exact (Ho _ _ U Hl Nv). }
      assert (P1 : pre (ps_up sw) = pre (ps_up sr)) by now apply pre_keys.
      assert (P2 : pre (ps_up sE) = pre (ps_up sr)) by (rewrite <- P1; apply pre_keys; now symmetry).
      assert (G1 : get_raw (scope_of sw) false x ix = Ok v).
      { eapply (w_get G D); [exact W|exact IL|rewrite AL'; exact Ei| | |exact Ndv]; unfold at_path; rewrite P1; assumption. }
      assert (G2 : get_raw (scope_of sE) false x ix = Ok v).
      { eapply (w_get G E); [exact WE|exact IL|rewrite <- AL, AL'; exact Ei| | |exact Ndv]; unfold at_path; rewrite P2; assumption. }
      rewrite G1, G2. split; [reflexivity|]. intros a Q. injection Q as ->. inversion X.
  Qed.

  Lemma third_slot s L T T' k e sw sE sr : wst G D s L sw -> wst G E s L sE -> aligned sw sE -> rst wo ro G D s L sr -> aligned sw sr ->
    toks sr T' -> holds E sr -> slot G s L T k e = Some T' ->
    eval_known depth (scope_of sE) false false e = eval_known depth (scope_of sw) false false e.
  Proof.
    intros W WE A R Ar TK Ho Sl. unfold eval_known. rewrite (eval_agree depth (scope_of sw) (scope_of sE)); [reflexivity|].
    intros x ix I. eapply third_raw; eauto. destruct (slot_vars _ _ _ _ _ _ Sl x ix I) as [X|(X & Y & Z)]; [now left|right]. auto.
  Qed.
  Lemma third_fields s L sw sE sr : wst G D s L sw -> wst G E s L sE -> aligned sw sE -> rst wo ro G D s L sr -> aligned sw sr -> holds E sr ->
    forall l T T', toks sr T' -> slots G s L T l = Some T' ->
    map_write EW (map snd l) sE = (fst (map_write EW (map snd l) sw), sE).
  Proof.
    intros W WE A R Ar Ho l T T' TK Sl. unfold map_write. cbn [fst]. f_equal. revert T Sl.
    induction l as [|[k e] l IH]; intros T Sl; [reflexivity|]. cbn [slots] in Sl. destruct (slot G s L T k e) as [T1|] eqn:S; [|discriminate].
    cbn [map snd mapM]. change (e_depth EW) with depth in *.
    rewrite (third_slot _ _ _ _ _ _ _ _ _ W WE A R Ar (fun t I => TK t (slots_mono _ _ _ _ _ Sl t I)) Ho S).
    rewrite (IH _ Sl). reflexivity.
  Qed.

  (** ** Control numbers *)

  Lemma third_dic s L sw sE x : wst G D s L sw -> wst G E s L sE -> aligned sw sE -> ctrl_name x ->
    same_shape (dget (KStr x) (ctrl_dic (ps_dic sE) (ps_up sE))) (dget (KStr x) (ctrl_dic (ps_dic sw) (ps_up sw))).
  Proof.
    intros [S W] [SE WE] [_ A] C. apply (ctrl_third G GG); auto.
    - apply (so_open _ _ _ _ S).
    - apply (so_open _ _ _ _ SE).
    - apply (so_sec _ _ _ _ S).
    - intros p y Up Cy. assert (U : user_path (p ++ [KStr y])).
      { apply user_app. split; [exact Up|]. apply (user_str y []). intros [X|[X|X]]; destruct Cy as [Y|[Y|Y]]; rewrite Y in X; discriminate. }
      eapply shape_trans; [exact (WE _ U)|]. eapply shape_trans; [|apply shape_sym; exact (W _ U)].
      destruct (DE _ U) as [X|(_ & _ & N)]; [exact X|]. destruct (N p y eq_refl Cy).
  Qed.
  Lemma third_ctrl s L sw sE c : wst G D s L sw -> wst G E s L sE -> aligned sw sE -> the_ctrl sw = Ok c -> the_ctrl sE = Ok c.
  Proof.
    intros W WE A H. unfold the_ctrl in *. apply get_ctrl_inv in H as (A1 & A2 & A3).
    assert (Y : forall x z, ctrl_name x -> dget (KStr x) (ctrl_dic (ps_dic sw) (ps_up sw)) = Some (vint z) ->
      dget (KStr x) (ctrl_dic (ps_dic sE) (ps_up sE)) = Some (vint z)).
    { intros x z Cx Hx. eapply shape_leaf; [apply shape_sym; exact (third_dic _ _ _ _ _ W WE A Cx)|exact Hx|]. intros [e Q]; discriminate. }
    unfold get_ctrl. rewrite (Y _ _ (or_introl eq_refl) A1), (Y _ _ (or_intror (or_introl eq_refl)) A2), (Y _ _ (or_intror (or_intror eq_refl)) A3).
    destruct c. reflexivity.
  Qed.
  Lemma third_check s L sw sE cs c x : wst G D s L sw -> wst G E s L sE -> aligned sw sE -> the_ctrl sw = Ok c ->
    check_spec_write cs sw = (Ok tt, x) -> check_spec_write cs sE = (Ok tt, sE).
  Proof.
    intros W WE A C H. pose proof (third_ctrl _ _ _ _ _ W WE A C) as CE. unfold the_ctrl in *.
    apply get_ctrl_inv in C as (A1 & A2 & A3). apply get_ctrl_inv in CE as (B1 & B2 & B3).
    unfold check_spec_write in *. rewrite A1, A2, A3 in H. rewrite B1, B2, B3. injection H as -> _. reflexivity.
  Qed.

  (** ** Sections *)

  Lemma third_open s L sw sE (u : extvar) sw1 : wst G D s L sw -> wst G E s L sE -> aligned sw sE -> section_var G s L u = true ->
    open_section EW u sw = (Ok tt, sw1) -> exists sE1, open_section EW u sE = (Ok tt, sE1) /\ wst G E (fst u :: s) L sE1 /\ aligned sw1 sE1.
  Proof.
    intros W WE A SV H. destruct (w_open wo ro blank depth G GG D _ _ _ _ _ W SV H) as (W1 & _ & _ & El & _ & _ & f & idcs & e & Eu & En & Ex & Ei & _ & He).
    pose proof W1 as [S1 _]. pose proof WE as [SE WEd]. destruct A as [AL AU].
    assert (U : user_path (pre (ps_up sw1))) by (apply (user_pre G GG), (so_sec _ _ _ _ S1)).
    destruct (drops_dict _ _ U He) as (e1 & He1).
    assert (Hd : exists d1, path_get (frame_keys f) (VDict (ps_dic sE)) = Some (VDict d1)).
    { rewrite (local_get sE) by apply (so_open _ _ _ _ SE).
      assert (Q : pre (ps_up sE) ++ frame_keys f = pre (ps_up sw1)).
      { rewrite Eu. cbn [pre]. f_equal. symmetry. now apply pre_keys. }
      rewrite Q. eapply shape_dict; [apply shape_sym, WEd; exact U|exact He1]. }
    destruct Hd as (d1 & Hd). destruct u as [x ix]. cbn [fst snd] in *.
    set (fE := {| fr_dic := ps_dic sE; fr_name := x; fr_idx := idcs |}).
    assert (Ek : frame_keys f = frame_keys fE) by (unfold frame_keys; cbn [fE fr_name fr_idx]; now rewrite En, Ex).
    assert (Op : open_section EW (x, ix) sE = (Ok tt, set_up (fE :: ps_up sE) (dset (KStr $"__up") VUp d1) sE)).
    { unfold open_section. rewrite <- AL, Ei. cbn [bind]. change (negb (e_write EW)) with false.
      change (KStr x :: map KInt idcs) with (frame_keys fE). rewrite <- Ek. rewrite (open_existing _ _ _ _ Hd). reflexivity. }
    eexists. split; [exact Op|].
    destruct (w_open wo ro blank depth G GG E _ _ _ _ _ WE SV Op) as (WE1 & _). split; [exact WE1|]. split.
    - cbn [set_up ps_loops]. congruence.
    - cbn [set_up ps_up]. rewrite Eu. cbn [map]. now rewrite Ek, AU.
  Qed.

  (** a reader in step with the writer of [D] is in step with that of [E] *)
  Lemma third_instep s L O T sw sE sr : instep wo ro G D s L O T sw sr -> aligned sw sE -> holds E sr -> instep wo ro G E s L O T sE sr.
  Proof.
    intros [(S & P & Op) [A1 A2] Lv] [B1 B2] Ho. constructor; [|split; congruence|exact Lv].
    split; [exact S|]. split; [|exact Op]. intros p v' U H. destruct (P p v' U H) as (v & Hv & [[[d Xd] Xd']|(k & K & X)]).
    - subst v. destruct (drops_dict _ _ U Hv) as (e & He). exists (VDict e). split; [exact He|]. left. split; [eexists; reflexivity|exact Xd'].
    - destruct (printed_leaf _ _ _ _ _ X) as [N1 N2]. exists v. split; [|right; eauto]. apply drops_leaf; auto. exact (Ho p v' U H N2).
  Qed.
End Third.

(** the writer with the dictionary [E] writes the same lines *)
Definition third (G : schema) (D : dict) (s L : list str) (sw : pstate) (mw : M unit) (new : list str) (sr' : pstate) : Prop :=
  forall E sE, drops D E -> holds E sr' -> wst G E s L sE -> aligned sw sE ->
  exists sE', mw sE = (Ok tt, sE') /\ wst G E s L sE' /\ kept sE sE' /\ ps_lines sE' = ps_lines sE ++ new.

Lemma third_grows G D s L sw mw new a b : grows a b -> third G D s L sw mw new a -> third G D s L sw mw new b.
Proof. intros Gr Th E sE DE Ho. apply Th; [exact DE|]. eapply holds_grows; eauto. Qed.

Lemma third_lines G E s L sE mw ls : wst G E s L sE -> mw sE = (Ok tt, add_lines ls sE) ->
  exists sE', mw sE = (Ok tt, sE') /\ wst G E s L sE' /\ kept sE sE' /\ ps_lines sE' = ps_lines sE ++ ls.
Proof.
  intros [S W] H. exists (add_lines ls sE). split; [exact H|]. split; [split; [|exact W]|].
  - destruct S. constructor; assumption.
  - split; [|reflexivity]. constructor; try reflexivity. apply abbr_refl.
Qed.

Lemma aligned_kept a b a' b' : aligned a b -> kept a a' -> kept b b' -> aligned a' b'.
Proof. intros [A1 A2] K1 K2. split; [rewrite (kp_loops _ _ K1), (kp_loops _ _ K2)|rewrite (kp_up _ _ K1), (kp_up _ _ K2)]; assumption. Qed.
