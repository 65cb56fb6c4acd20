(** C31: conditionals whose conditions are evaluated with lookahead. *)
From Coq Require Import Ascii String ZArith Bool Lia List QArith.
From Coq Require Import Floats.SpecFloat.
From Verif Require Import PyBase PyFloat ModelFortran ProofFloat ModelRecords ModelNum ModelRecipe ModelInterp.
From Verif Require Import SpecFields SpecInterp SpecRound ProofPyBase ProofFields ProofRecords.
From Verif Require Import ProofInterp ProofInterpFrame ProofInterpCtl ProofInterpSec ProofInterpMap ProofInterpWrite.
From Verif Require Import ProofRound1 ProofRound2 ProofRound3 ProofRound4 ProofThird ProofRound5 ProofRound6 ProofRound7 ProofRound8.
Import ListNotations.
Open Scope Z_scope.

Lemma int_quot_finite w z : z <> 0 -> Z.abs w <= 2 ^ 106 -> is_finite (int_quot w z) = true.
Proof.
  intros Hz Hw. unfold int_quot. apply (round64_spec _ (Z.abs w) (Z.abs z)); [lia|lia|].
  apply (Qle_lt_trans _ (p2 106)); [|reflexivity]. unfold frac. change (p2 106) with (inject_Z (2 ^ 106)).
  apply Qle_shift_div_r.
  - change 0%Q with (inject_Z 0). rewrite <- Zlt_Qlt. lia.
  - rewrite <- inject_Z_mult, <- Zle_Qle. nia.
Qed.

Section Peek.
  Variable wo : wopts.
  Variable ro : ropts.
  Variable depth : nat.
  Variable G : schema.
  Let ER := read_env ro wo depth.

  Record peek_ok (s L : list str) (seen : list expr) (st : pstate) : Prop := {
    pk_all : o_all (ps_opts st) = true;
    pk_fuzzy : o_fuzzy (ps_opts st) = false;
    pk_loops : forall x, scalar_name G s L x = true -> lget x (ps_loops st) = None;
    pk_num : forall x, scalar_name G s L x = true -> dget (KStr x) (ps_dic st) = None \/ exists n, dget (KStr x) (ps_dic st) = Some (VNum n);
    pk_int : forall x, scalar_name G s L x = true -> has_kind G s x IntS = true -> existsb (mentions x) seen = false ->
      dget (KStr x) (ps_dic st) = None \/ exists z, dget (KStr x) (ps_dic st) = Some (vint z)
  }.

  Lemma all_checked o e a b : o_all o = true -> o_fuzzy o = false -> check_value o e (VNum a) (VNum b) = Ok tt.
  Proof.
    intros A F. unfold check_value. rewrite A, F. cbn [same_size val_len negb bind].
    destruct (negb (val_eqb _ _)); cbn [negb]; [|reflexivity].
    destruct (o_zero o && _); [reflexivity|]. destruct (o_number o && _); [reflexivity|]. destruct (o_varspec o && _); reflexivity.
  Qed.

  Lemma coef_vint z : coef0 (vint z) = (z =? 0).
  Proof.
    unfold coef0, val_eqZ, vint, num_eqb, num_cmp. cbn [sf_of num_num num_den]. rewrite !Z.mul_1_r.
    unfold Z.eqb. destruct z; reflexivity.
  Qed.

  Definition entered (e : expr) (v : val) (d d2 : dict) : Prop :=
    (forall k u, dget k d = Some u -> dget k d2 = Some u) /\
    (forall k, (forall x, k = KStr x -> mentions x e = false) -> dget k d2 = dget k d) /\
    (forall x, plain_name e = Some x -> dget (KStr x) d = None -> dget (KStr x) d2 = Some v).

  Lemma entered_same e v d : (forall x, plain_name e = Some x -> dget (KStr x) d <> None) -> entered e v d d.
  Proof. intros H. split; [auto|]. split; [auto|]. intros x P N. destruct (H x P N). Qed.
  Lemma entered_new e x v d : mentions x e = true -> (forall y, plain_name e = Some y -> y = x) -> dget (KStr x) d = None ->
    forall w, (plain_name e = Some x -> w = v) -> entered e v d (dset (KStr x) w d).
  Proof.
    intros Mx Px Nx w Ew. split; [|split].
    - intros k u H. rewrite dget_dset_other; [exact H|]. intros ->. congruence.
    - intros k H. apply dget_dset_other. intros ->. specialize (H x eq_refl). congruence.
    - intros y P _. pose proof (Px y P) as ->. rewrite dget_dset_same. now rewrite (Ew P).
  Qed.

  Lemma peek_enter s L seen st e v d2 : peek_ok s L seen st -> entered e v (ps_dic st) d2 ->
    (forall x, dget (KStr x) (ps_dic st) = None -> dget (KStr x) d2 = None \/ exists n, dget (KStr x) d2 = Some (VNum n)) ->
    peek_ok s L (seen ++ [e]) (set_dic d2 st).
  Proof.
    intros P (E1 & E2 & _) Nw. constructor; try apply P.
    - intros x Sx. cbn [set_dic ps_dic]. destruct (pk_num _ _ _ _ P x Sx) as [H|[n H]]; [now apply Nw|]. right. exists n. now apply E1.
    - intros x Sx Kx Ms. rewrite existsb_app in Ms. apply orb_false_iff in Ms as [Ms Me]. cbn [existsb] in Me. rewrite orb_false_r in Me.
      cbn [set_dic ps_dic]. rewrite E2 by (intros y Ey; injection Ey as <-; exact Me). exact (pk_int _ _ _ _ P x Sx Kx Ms).
  Qed.

  Lemma str_eqb_refl' x : str_eqb x x = true. Proof. now apply str_eqb_eq. Qed.

  Lemma peek_name s L seen st e x n : peek_ok s L seen st -> e = EVar x [] \/ e = EIncons x [] -> scalar_name G s L x = true ->
    exists d2, map_field ER (VNum n) e st = (Ok false, set_dic d2 st) /\ entered e (VNum n) (ps_dic st) d2 /\
      peek_ok s L (seen ++ [e]) (set_dic d2 st).
  Proof.
    intros P Ee Sx.
    assert (Pn : plain_name e = Some x /\ mentions x e = true).
    { destruct Ee as [-> | ->]; cbn [plain_name mentions]; now rewrite str_eqb_refl'. }
    assert (Ev : forall cast, eval_expr depth (scope_of st) false cast true e = eval_var depth (scope_of st) false cast true x []).
    { intros cast. destruct Ee as [-> | ->]; rewrite eval_expr_eq; reflexivity. }
    assert (Raw : get_raw (scope_of st) false x [] = match dget (KStr x) (ps_dic st) with Some v => Ok v | None => Err (VariableNotFoundError x) end).
    { unfold get_raw. cbn [scope_of sc_loops sc_dic]. rewrite (pk_loops _ _ _ _ P x Sx). reflexivity. }
    unfold map_field. cbn [ER read_env e_depth]. rewrite Ev. destruct Pn as [Pn Mn].
    destruct (pk_num _ _ _ _ P x Sx) as [H|[m H]]; rewrite H in Raw.
    - rewrite (eval_var_missing _ _ _ _ _ _ _ Raw eq_refl). exists (dset (KStr x) (VNum n) (ps_dic st)).
      assert (En : entered e (VNum n) (ps_dic st) (dset (KStr x) (VNum n) (ps_dic st))).
      { apply (entered_new e x); auto. intros y Ey. congruence. }
      split; [reflexivity|]. split; [exact En|]. eapply peek_enter; [exact P|exact En|]. intros y Hy.
      destruct (str_eqb y x) eqn:Exy.
      + apply str_eqb_eq in Exy as ->. right. exists n. apply dget_dset_same.
      + left. rewrite dget_dset_other; [exact Hy|]. intros Q. injection Q as ->. now rewrite str_eqb_refl' in Exy.
    - rewrite (eval_var_ok _ _ _ _ _ _ _ _ Raw) by (intros a; discriminate). exists (ps_dic st).
      assert (En : entered e (VNum n) (ps_dic st) (ps_dic st)) by (apply entered_same; intros y Ey; congruence).
      split; [|split; [exact En|eapply peek_enter; eauto]].
      cbn [coef0 val_eqZ]. change (coef0 (vint 0)) with true. cbn [negb].
      rewrite (all_checked _ _ _ _ (pk_all _ _ _ _ P) (pk_fuzzy _ _ _ _ P)). now destruct st.
  Qed.

  Lemma peek_num s L seen st de m n : peek_ok s L seen st ->
    exists d2, map_field ER (VNum n) (ENum de m) st = (Ok false, set_dic d2 st) /\ entered (ENum de m) (VNum n) (ps_dic st) d2 /\
      peek_ok s L (seen ++ [ENum de m]) (set_dic d2 st).
  Proof.
    intros P. exists (ps_dic st). assert (En : entered (ENum de m) (VNum n) (ps_dic st) (ps_dic st)) by (apply entered_same; intros y Ey; discriminate).
    split; [|split; [exact En|eapply peek_enter; eauto]].
    unfold map_field. cbn [ER read_env e_depth]. rewrite eval_expr_eq. cbv zeta. change (coef0 (vint 0)) with true. cbn [negb].
    rewrite (all_checked _ _ _ _ (pk_all _ _ _ _ P) (pk_fuzzy _ _ _ _ P)). now destruct st.
  Qed.

  Lemma peek_product s L seen st de z x w : peek_ok s L seen st -> z <> 0 -> scalar_name G s L x = true -> has_kind G s x IntS = true ->
    existsb (mentions x) seen = false -> Z.abs w <= 2 ^ 106 ->
    let e := EMul (ENum de (NInt z)) (EVar x []) in
    exists d2, map_field ER (vint w) e st = (Ok false, set_dic d2 st) /\ entered e (vint w) (ps_dic st) d2 /\
      peek_ok s L (seen ++ [e]) (set_dic d2 st).
  Proof.
    intros P Hz Sx Kx Ms Hw e.
    assert (Raw : get_raw (scope_of st) false x [] = match dget (KStr x) (ps_dic st) with Some v => Ok v | None => Err (VariableNotFoundError x) end).
    { unfold get_raw. cbn [scope_of sc_loops sc_dic]. rewrite (pk_loops _ _ _ _ P x Sx). reflexivity. }
    assert (E1 : forall cast, eval_expr depth (scope_of st) false cast true (ENum de (NInt z)) = Ok (vint z, vint 0, None)).
    { intros cast. now rewrite eval_expr_eq. }
    unfold map_field. cbn [ER read_env e_depth]. rewrite (pk_all _ _ _ _ P). cbn [negb].
    destruct (pk_int _ _ _ _ P x Sx Kx Ms) as [H|[m H]]; rewrite H in Raw.
    - assert (E2 : eval_expr depth (scope_of st) false false true (EVar x []) = Ok (vint 0, vint 1, Some (x, []))).
      { rewrite eval_expr_eq. exact (eval_var_missing _ _ _ _ _ _ _ Raw eq_refl). }
      unfold e. rewrite eval_expr_eq. cbv zeta. rewrite E1, E2. cbn [bind]. rewrite !coef_vint. cbn [Z.eqb negb andb].
      assert (X : exists n, solve false (vint (z * 0)) (vint (z * 1)) (vint w) = Ok (VNum n)).
      { rewrite Z.mul_0_r, Z.mul_1_r. unfold solve. destruct (val_eqZ (vint 0) 0 && val_eqZ (vint z) 1); [eexists; reflexivity|].
        unfold math_sub, math_op, vint. cbn [as_num fst snd bind n_sub arith]. rewrite Z.sub_0_r.
        unfold math_div, num_div, n_div. rewrite (proj2 (Z.eqb_neq z 0) Hz). pose proof (int_quot_finite w z Hz Hw) as Fin.
        destruct (int_quot w z) as [?|?| |sg m0 e0]; try discriminate; cbn [bind]; destruct (sf_integral _); eexists; reflexivity. }
      destruct X as [n X].
      change (math_mul (vint z) (vint 0)) with (@Ok val (vint (z * 0))). change (math_mul (vint z) (vint 1)) with (@Ok val (vint (z * 1))). cbn [bind].
      exists (dset (KStr x) (VNum n) (ps_dic st)).
      assert (En : entered (EMul (ENum de (NInt z)) (EVar x [])) (vint w) (ps_dic st) (dset (KStr x) (VNum n) (ps_dic st))).
      { apply (entered_new _ x); auto; try discriminate. cbn [mentions orb]. apply str_eqb_refl'. }
      split; [|split; [exact En|]].
      + rewrite X. reflexivity.
      + eapply peek_enter; [exact P|exact En|]. intros y Hy. destruct (str_eqb y x) eqn:Exy.
        * apply str_eqb_eq in Exy as ->. right. exists n. apply dget_dset_same.
        * left. rewrite dget_dset_other; [exact Hy|]. intros Q. injection Q as ->. now rewrite str_eqb_refl' in Exy.
    - assert (E2 : eval_expr depth (scope_of st) false false true (EVar x []) = Ok (vint m, vint 0, None)).
      { rewrite eval_expr_eq. apply eval_var_ok; [exact Raw|intros a; discriminate]. }
      exists (ps_dic st). assert (En : entered e (vint w) (ps_dic st) (ps_dic st)) by (apply entered_same; discriminate).
      split; [|split; [exact En|eapply peek_enter; eauto]].
      unfold e. rewrite eval_expr_eq. cbv zeta. rewrite E1, E2. cbn [bind]. rewrite !coef_vint. cbn [Z.eqb negb andb].
      change (math_mul (vint z) (vint m)) with (@Ok val (vint (z * m))). change (math_mul (vint z) (vint 0)) with (@Ok val (vint (z * 0))). cbn [bind].
      rewrite Z.mul_0_r. change (coef0 (vint 0)) with true. cbn [negb].
      unfold vint. rewrite (all_checked _ _ _ _ (pk_all _ _ _ _ P) (pk_fuzzy _ _ _ _ P)). now destruct st.
  Qed.
  Definition peek_val (ke : kind * expr) (v : val) : Prop :=
    (exists n, v = VNum n) /\ (no_product (snd ke) = false -> exists w, v = vint w /\ Z.abs w <= 2 ^ 106).

  Lemma peek_one s L seen st k e r v : peek_ok s L seen st -> peekable G s L seen ((k, e) :: r) = true -> peek_val (k, e) v ->
    exists d2, map_field ER v e st = (Ok false, set_dic d2 st) /\ entered e v (ps_dic st) d2 /\
      peek_ok s L (seen ++ [e]) (set_dic d2 st).
  Proof.
    intros P Pk [[n ->] Pv]. cbn [peekable] in Pk. apply andb_true_iff in Pk as [Pk _]. cbn [snd] in Pv.
    destruct e as [x ix|x ix|de m|a|a b|a b|a b|a b|a b]; try discriminate.
    - destruct ix; [|discriminate]. eapply peek_name; eauto.
    - destruct ix; [|discriminate]. eapply peek_name; eauto.
    - now apply peek_num.
    - destruct a as [| |de m| | | | | |]; try discriminate. destruct m as [z| |]; try discriminate.
      destruct b as [x ix| | | | | | | |]; try discriminate. destruct ix; [|discriminate].
      rewrite !andb_true_iff, !negb_true_iff in Pk. destruct Pk as ((((Hz & _) & Sx) & Kx) & Ms). apply Z.eqb_neq in Hz.
      destruct (Pv eq_refl) as (w & Ew & Hw). rewrite Ew. now apply peek_product.
  Qed.

  Lemma peek_fields s L : forall l seen vals st, peek_ok s L seen st -> peekable G s L seen l = true -> Forall2 peek_val l vals ->
    exists d2, map_fields ER (combine vals (map snd l)) st = (Ok false, set_dic d2 st) /\
      (forall k u, dget k (ps_dic st) = Some u -> dget k d2 = Some u) /\
      (forall k, (forall x, k = KStr x -> existsb (fun f => mentions x (snd f)) l = false) -> dget k d2 = dget k (ps_dic st)) /\
      (forall x ke v, In (ke, v) (combine l vals) -> plain_name (snd ke) = Some x ->
         length (filter (fun f => mentions x (snd f)) l) = 1%nat -> dget (KStr x) (ps_dic st) = None -> dget (KStr x) d2 = Some v) /\
      (forall x, scalar_name G s L x = true -> dget (KStr x) d2 = None \/ exists n, dget (KStr x) d2 = Some (VNum n)).
  Proof.
    induction l as [|[k e] l IH]; intros seen vals st P Pk Fv.
    - inversion Fv; subst. exists (ps_dic st). split; [cbn; unfold ret; f_equal; now destruct st|]. split; [auto|]. split; [auto|]. split; [intros x ke v []|apply (pk_num _ _ _ _ P)].
    - inversion Fv as [|? v ? vals' V1 V2]; subst. destruct (peek_one _ _ _ _ _ _ _ _ P Pk V1) as (d1 & H1 & (A1 & A2 & A3) & P1).
      cbn [peekable] in Pk. apply andb_true_iff in Pk as [_ Pk]. destruct (IH _ _ _ P1 Pk V2) as (d2 & H2 & B1 & B2 & B3 & B4). cbn [set_dic ps_dic] in *.
      exists d2. cbn [map snd combine map_fields]. split; [|split; [|split; [|split; [|exact B4]]]].
      + unfold mbind. rewrite H1, H2. reflexivity.
      + auto.
      + intros q Hq. rewrite B2.
        * apply A2. intros x Ex. specialize (Hq x Ex). cbn [existsb snd] in Hq. now apply orb_false_iff in Hq as [Hq _].
        * intros x Ex. specialize (Hq x Ex). cbn [existsb snd] in Hq. now apply orb_false_iff in Hq as [_ Hq].
      + intros x ke u Iu Px Cn Nx. cbn [filter snd] in Cn.
        assert (Men : forall e', plain_name e' = Some x -> mentions x e' = true).
        { intros e' Pe. destruct e' as [y iy|y iy| | | | | | |]; try discriminate; destruct iy; try discriminate; injection Pe as ->; cbn [mentions]; apply str_eqb_refl'. }
        destruct Iu as [Iu|Iu].
        * injection Iu as <- <-. cbn [snd] in Px. rewrite (Men _ Px) in Cn. cbn [length] in Cn. apply B1, A3; auto.
        * assert (Il : In ke l) by (apply in_combine_l in Iu; exact Iu).
          destruct (mentions x e) eqn:Me.
          -- exfalso. cbn [length] in Cn. assert (F0 : filter (fun f : kind * expr => mentions x (snd f)) l = []) by (destruct (filter _ l); [reflexivity|cbn in Cn; lia]).
             assert (In ke (filter (fun f : kind * expr => mentions x (snd f)) l)) by (apply filter_In; split; [exact Il|now apply Men]). rewrite F0 in H. destruct H.
          -- apply (B3 x ke u Iu Px Cn). rewrite A2; [exact Nx|]. intros y Ey. injection Ey as <-. exact Me.
  Qed.

  Lemma peek_read s L l vals st : peek_ok s L [] st -> peekable G s L [] l = true -> Forall2 peek_val l vals ->
    exists d2, map_read ER (combine vals (map snd l)) st = (Ok tt, set_dic d2 st) /\
      (forall k u, dget k (ps_dic st) = Some u -> dget k d2 = Some u) /\
      (forall k, (forall x, k = KStr x -> existsb (fun f => mentions x (snd f)) l = false) -> dget k d2 = dget k (ps_dic st)) /\
      (forall x ke v, In (ke, v) (combine l vals) -> plain_name (snd ke) = Some x ->
         length (filter (fun f => mentions x (snd f)) l) = 1%nat -> dget (KStr x) (ps_dic st) = None -> dget (KStr x) d2 = Some v) /\
      (forall x, scalar_name G s L x = true -> dget (KStr x) d2 = None \/ exists n, dget (KStr x) d2 = Some (VNum n)).
  Proof.
    intros P Pk Fv. destruct (peek_fields _ _ _ _ _ _ P Pk Fv) as (d2 & H & Q). exists d2. split; [|exact Q].
    unfold map_read. cbn [map_tries]. unfold mbind. rewrite H. reflexivity.
  Qed.

  (** names that a record can enter *)
  Lemma peekable_names s L : forall l seen x, peekable G s L seen l = true -> existsb (fun f => mentions x (snd f)) l = true -> scalar_name G s L x = true.
  Proof.
    induction l as [|[k e] l IH]; intros seen x Pk M; [discriminate|]. cbn [peekable] in Pk. apply andb_true_iff in Pk as [Pe Pk].
    cbn [existsb snd] in M. apply orb_true_iff in M as [M|M]; [|eapply IH; eauto].
    destruct e as [y iy|y iy|de m|a|a b|a b|a b|a b|a b]; try discriminate.
    - destruct iy; [|discriminate]. cbn [mentions] in M. apply str_eqb_eq in M as ->. exact Pe.
    - destruct iy; [|discriminate]. cbn [mentions] in M. apply str_eqb_eq in M as ->. exact Pe.
    - destruct a as [| |de m| | | | | |]; try discriminate. destruct m as [z| |]; try discriminate.
      destruct b as [y iy| | | | | | | |]; try discriminate. destruct iy; [|discriminate].
      rewrite !andb_true_iff in Pe. cbn [mentions orb] in M. apply str_eqb_eq in M as ->. tauto.
  Qed.

  (** ** The first record during lookahead *)

  Lemma header_state t st vals c st' a : header ro t st = (Ok (vals, c), st') ->
    ps_lines a = ps_lines st -> ps_ofs a = ps_ofs st ->
    exists o, header ro t a = (Ok (vals, c), advance (fst o) (snd o) a).
  Proof.
    intros H El Eo. destruct t; cbn [header] in *; unfold mbind, read_with in *; rewrite El, Eo;
      (destruct (skip_blank_lines (ps_lines st) (ps_ofs st)) as [o|]; [|discriminate]).
    - destruct (read_cont ro (ps_lines st) o) as [[[r c'] o']|]; [|discriminate]. injection H as <- <- _. exists (o, o'). reflexivity.
    - destruct (read_tab1 ro (ps_lines st) o) as [[[[r c'] tb] o']|]; [|discriminate]. injection H as <- <- _. exists (o, o'). reflexivity.
    - destruct (read_list ro (ps_lines st) o) as [[[[r c'] tb] o']|]; [|discriminate]. injection H as <- <- _. exists (o, o'). reflexivity.
  Qed.

  Definition after_head (t : rtype) (c : ctrl) (d : dict) : dict :=
    match t with
    | RCont true => dset (KStr $"MT") (vint (MT c)) (dset (KStr $"MF") (vint (MF c)) (dset (KStr $"MAT") (vint (MAT c)) d))
    | _ => d
    end.

  Lemma peek_exec s L p body st vals c sr sr' : first_record body = Some p -> ps_look st = Some 1 -> peek_ok s L [] st ->
    peekable G s L [] (fs_slots p) = true -> Forall2 peek_val (fs_slots p) vals ->
    header ro (fs_type p) sr = (Ok (vals, c), sr') -> ps_lines st = ps_lines sr -> ps_ofs st = ps_ofs sr ->
    check_spec (fs_spec p) (vint (MAT c)) (vint (MF c)) (vint (MT c)) = Ok tt ->
    exists d2 st2, exec_block ER body st = (Ok tt, st2) /\ ps_dic st2 = after_head (fs_type p) c d2 /\ ps_up st2 = ps_up st /\ ps_loops st2 = ps_loops st /\
      (forall k u, dget k (ps_dic st) = Some u -> dget k d2 = Some u) /\
      (forall k, (forall x, k = KStr x -> existsb (fun f => mentions x (snd f)) (fs_slots p) = false) -> dget k d2 = dget k (ps_dic st)) /\
      (forall x ke v, In (ke, v) (combine (fs_slots p) vals) -> plain_name (snd ke) = Some x ->
         length (filter (fun f => mentions x (snd f)) (fs_slots p)) = 1%nat -> dget (KStr x) (ps_dic st) = None -> dget (KStr x) d2 = Some v) /\
      (forall x, scalar_name G s L x = true -> dget (KStr x) d2 = None \/ exists n, dget (KStr x) d2 = Some (VNum n)).
  Proof.
    intros Fr Lk P Pk Fv Hh El Eo Cs.
    set (st0 := set_look (Some 0) st). destruct (header_state _ _ _ _ _ st0 Hh El Eo) as (o & Hs). set (st1 := advance (fst o) (snd o) st0) in *.
    assert (P1 : peek_ok s L [] st1) by (constructor; apply P).
    destruct (peek_read _ _ _ _ _ P1 Pk Fv) as (d2 & Hm & Q). exists d2.
    assert (Rest : forall r st', ps_look st' = Some 0 -> exec_block ER r st' = (Ok tt, st')).
    { intros [|i r] st' L'; [reflexivity|]. rewrite exec_cons_eq. unfold mbind, should_proceed. rewrite L'. reflexivity. }
    assert (Gd : forall m i r, exec ER i = guarded true m -> exec_block ER (BCons i r) st = match m st0 with (Ok _, s') => exec_block ER r s' | (Err e, s') => (Err e, s') end).
    { intros m i r E. rewrite exec_cons_eq. unfold mbind at 1, should_proceed. rewrite Lk. cbn [Z.eqb]. unfold mbind. rewrite E. unfold guarded, mbind, should_proceed.
      rewrite Lk. cbn [Z.eqb]. change (1 - 1) with 0. fold st0. destruct (m st0) as [[[]|e] s']; reflexivity. }
    assert (If0 : forall (m : M unit) st', ps_look st' = Some 0 -> if_proceed tt m st' = (Ok tt, st')).
    { intros m st' L'. unfold if_proceed, mbind, should_proceed. rewrite L'. reflexivity. }
    destruct body as [|i r]; [discriminate|]. destruct i; try discriminate; injection Fr as <-; cbn [fs_type fs_spec fs_slots] in *; 
      match goal with |- context [exec_block ER (BCons ?i r) st] => rewrite (Gd _ i r eq_refl) end.
    - cbn [header] in Hs. apply mbind_ok in Hs as ((r0 & c0) & st' & Hr & Hs). unfold ret in Hs. injection Hs as Ev Ec Es. rewrite Es, Ec in Hr. subst vals.
      unfold do_cont. cbn [ER read_env e_write e_ro]. fold ER. unfold mbind. rewrite Hr. unfold check_spec_read, lift. rewrite Cs.
      cbn [cont_slots map snd] in Hm. unfold fields_list. rewrite Hm. destruct head.
      + exists (set_dic (after_head (RCont true) c d2) st1). split; [|repeat split; try apply Q]. unfold update_ctrl, modify. cbn [after_head]. rewrite Rest by reflexivity. reflexivity.
      + exists (set_dic d2 st1). split; [|repeat split; try apply Q]. unfold ret. now rewrite Rest by reflexivity.
    - cbn [header] in Hs. apply mbind_ok in Hs as (((r0 & c0) & tb) & st' & Hr & Hs). unfold ret in Hs. injection Hs as Ev Ec Es. rewrite Es, Ec in Hr. subst vals.
      unfold do_tab1. cbn [ER read_env e_write e_ro]. fold ER. unfold mbind. rewrite Hr. unfold check_spec_read, lift. rewrite Cs.
      cbn [map snd] in Hm. cbn [cont_vals firstn] in Hm. cbn [cont_vals combine] in *. rewrite Hm. rewrite If0 by reflexivity. rewrite Rest by reflexivity.
      exists (set_dic d2 st1). split; [reflexivity|repeat split; try apply Q].
    - cbn [header] in Hs. apply mbind_ok in Hs as (((r0 & c0) & tb) & st' & Hr & Hs). unfold ret in Hs. injection Hs as Ev Ec Es. rewrite Es, Ec in Hr. subst vals.
      unfold do_list. cbn [ER read_env e_write e_ro]. fold ER. unfold mbind. rewrite Hr. unfold check_spec_read, lift. rewrite Cs.
      cbn [cont_slots map snd] in Hm. unfold fields_list. rewrite Hm. rewrite If0 by reflexivity. rewrite Rest by reflexivity.
      exists (set_dic d2 st1). split; [reflexivity|repeat split; try apply Q].
  Qed.
End Peek.

Section Look.
  Variable wo : wopts.
  Variable ro : ropts.
  Variable blank : bool.
  Variable depth : nat.
  Variable G : schema.
  Hypothesis GG : good_schema G.
  Variable D : dict.
  Hypothesis CD : conforms wo ro G D.
  Hypothesis ZO : zeros_ok wo ro.
  Hypothesis SW : same_width wo ro.

  Let EW := write_env ro wo blank depth.
  Let ER := read_env ro wo depth.
  Let wst := wst G D.
  Let rst := rst wo ro G D.
  Let instep := instep wo ro G D.
  Let sim := sim wo ro G D.

  (** ** A simulation with what is known of its start and its end *)

  Definition simp (P : pstate -> pstate -> pstate -> Prop) (s L : list str) (O : list (list str * list extvar)) (T T' : list extvar) (mw mr : M unit) : Prop :=
    forall sw sw', wst s L sw -> mw sw = (Ok tt, sw') ->
      wst s L sw' /\ kept sw sw' /\ exists new, ps_lines sw' = ps_lines sw ++ new /\
      (full (w_width wo) new -> forall sr, instep s L O T sw sr -> at_lines new (ps_lines sr) (ps_ofs sr) ->
       exists sr', mr sr = (Ok tt, sr') /\ instep s L O T' sw' sr' /\ kept sr sr' /\ ps_lines sr' = ps_lines sr /\
         ps_ofs sr' = (ps_ofs sr + length new)%nat /\ grows sr sr' /\ third G D s L sw mw new sr' /\ P sw sr sr').

  Lemma simp_sim P s L O T T' mw mr : simp P s L O T T' mw mr -> sim s L O T T' mw mr.
  Proof.
    intros S sw sw' W H. destruct (S _ _ W H) as (W' & K & new & En & R). split; [exact W'|]. split; [exact K|]. exists new. split; [exact En|].
    intros F sr I A. destruct (R F sr I A) as (sr' & Q1 & Q2 & Q3 & Q4 & Q5 & Q6 & Q7 & _). exists sr'. auto 10.
  Qed.
  Lemma sim_simp (P : pstate -> pstate -> pstate -> Prop) s L O T T' mw mr : sim s L O T T' mw mr -> (forall a b c, P a b c) -> simp P s L O T T' mw mr.
  Proof.
    intros S HP sw sw' W H. destruct (S _ _ W H) as (W' & K & new & En & R). split; [exact W'|]. split; [exact K|]. exists new. split; [exact En|].
    intros F sr I A. destruct (R F sr I A) as (sr' & Q1 & Q2 & Q3 & Q4 & Q5 & Q6 & Q7). exists sr'. auto 10.
  Qed.
  Lemma simp_weak (P P' : pstate -> pstate -> pstate -> Prop) s L O T T' T'' mw mr : simp P s L O T T' mw mr ->
    (forall t, In t T'' -> In t T') -> (forall sw sr sr', P sw sr sr' -> P' sw sr sr') -> simp P' s L O T T'' mw mr.
  Proof.
    intros S Sub HP sw sw' W H. destruct (S _ _ W H) as (W' & K & new & En & R). split; [exact W'|]. split; [exact K|]. exists new. split; [exact En|].
    intros F sr I A. destruct (R F sr I A) as (sr' & Q1 & Q2 & Q3 & Q4 & Q5 & Q6 & Q7 & Q8). exists sr'.
    split; [exact Q1|]. split; [eapply instep_less; eauto|]. auto 10.
  Qed.
  Lemma simp_stops (P : pstate -> pstate -> pstate -> Prop) s L O T T' b mr : stops b = true -> simp P s L O T T' (exec_block EW b) mr.
  Proof. intros St sw sw' W H. exfalso. exact (stops_fails wo ro blank depth _ St _ _ _ (so_look _ _ _ _ (proj1 W)) H). Qed.

  Lemma simp_seq (P : pstate -> pstate -> pstate -> Prop) s L O T1 T2 T3 a b a' b' :
    (forall sw sr x y, P sw sr x -> grows x y -> kept x y -> P sw sr y) ->
    simp P s L O T1 T2 a a' -> sim s L O T2 T3 b b' -> simp P s L O T1 T3 (run _ <- a; b) (run _ <- a'; b').
  Proof.
    intros St S1 S2 sw sw' W H. apply mbind_ok in H as (x & sw1 & Ha & Hb). destruct x.
    destruct (S1 _ _ W Ha) as (W1 & K1 & n1 & E1 & R1). destruct (S2 _ _ W1 Hb) as (W2 & K2 & n2 & E2 & R2).
    split; [exact W2|]. split; [eapply kept_trans; eauto|]. exists (n1 ++ n2). split; [now rewrite E2, E1, app_assoc|].
    intros F sr I A. apply Forall_app in F as [F1 F2]. apply at_lines_app in A as [A1 A2].
    destruct (R1 F1 sr I A1) as (sr1 & H1 & I1 & Kr1 & El1 & Eo1 & G1 & Th1 & P1).
    destruct (R2 F2 sr1 I1) as (sr2 & H2 & I2 & Kr2 & El2 & Eo2 & G2 & Th2); [now rewrite El1, Eo1|].
    exists sr2. split; [unfold mbind; now rewrite H1|]. split; [exact I2|]. split; [eapply kept_trans; eauto|].
    split; [congruence|]. split; [rewrite Eo2, Eo1, app_length; lia|]. split; [eapply grows_trans; eauto|]. split; [|eapply St; eauto].
    intros E sE DE Ho WE AE. destruct (Th1 E sE DE (holds_grows _ _ _ G2 Ho) WE AE) as (sa & Ha' & Wa & Ka & La).
    destruct (Th2 E sa DE Ho Wa (aligned_kept _ _ _ _ AE K1 Ka)) as (sb & Hb' & Wb & Kb & Lb).
    exists sb. split; [unfold mbind; now rewrite Ha'|]. split; [exact Wb|]. split; [eapply kept_trans; eauto|]. now rewrite Lb, La, app_assoc.
  Qed.
  Lemma simp_eq P s L O T T' mw mr mw' mr' : simp P s L O T T' mw mr -> (forall st, ps_look st = None -> mw' st = mw st) ->
    (forall st, ps_look st = None -> mr' st = mr st) -> simp P s L O T T' mw' mr'.
  Proof.
    intros S E1 E2 sw sw' W H. rewrite E1 in H by apply (so_look _ _ _ _ (proj1 W)).
    destruct (S _ _ W H) as (W' & K & new & En & R). split; [exact W'|]. split; [exact K|]. exists new. split; [exact En|].
    intros F sr I A. destruct (R F sr I A) as (sr' & Hr & Q1 & Q2 & Q3 & Q4 & Q5 & Th & HP). exists sr'. split; [|do 5 (split; [assumption|])].
    - rewrite E2; [exact Hr|]. apply (so_look _ _ _ _ (proj1 (is_rst _ _ _ _ _ _ _ _ _ _ I))).
    - split; [|exact HP]. intros Ed sE DE Ho WE AE. destruct (Th Ed sE DE Ho WE AE) as (sE' & Q). exists sE'.
      rewrite E1; [exact Q|]. apply (so_look _ _ _ _ (proj1 WE)).
  Qed.

  (** ** The record a block begins with *)

  Definition plain_vars (s : list str) (l : list (kind * expr)) : list extvar :=
    flat_map (fun ke => match fst ke, plain_name (snd ke) with
                        | IntV, Some x => if has_kind G s x IntS then [(x, [])] else []
                        | _, _ => []
                        end) l.
  Definition bounded (L : list str) (ke : kind * expr) (v : val) : Prop :=
    fst ke = IntV -> small_field L (snd ke) = true -> forall w, v = vint w -> Z.abs w <= 2 ^ 106.

  Definition begun (s L : list str) (p : first) (sw sr sr' : pstate) : Prop :=
    exists vs vals c o, mapM (eval_known depth (scope_of sw) false false) (map snd (fs_slots p)) = Ok vs /\
      Forall3 (printed wo ro) (map fst (fs_slots p)) vs vals /\
      header ro (fs_type p) sr = (Ok (vals, c), advance (ps_ofs sr) o sr) /\
      check_spec (fs_spec p) (vint (MAT c)) (vint (MF c)) (vint (MT c)) = Ok tt /\
      Forall2 (bounded L) (fs_slots p) vs /\
      (forall x, In (x, []) (plain_vars s (fs_slots p)) -> is_loop L x = false) /\
      toks sr' (plain_vars s (fs_slots p)).

  Lemma begun_grows s L p sw sr x y : begun s L p sw sr x -> grows x y -> kept x y -> begun s L p sw sr y.
  Proof.
    intros (vs & vals & c & o & H1 & H2 & H3 & H4 & H5 & H6 & H7) Gr K. exists vs, vals, c, o. do 6 (split; [assumption|]).
    eapply toks_grows; [exact Gr|apply K|apply K|exact H7].
  Qed.

  Lemma slot_mono s L T k e T' : slot G s L T k e = Some T' -> incl T T'.
  Proof.
    intros H t It. destruct k; cbn [slot] in H; try discriminate.
    - destruct (known G s L T e); [injection H as <-; exact It|]. destruct (linear G s L T e); [|discriminate]. injection H as <-. now right.
    - destruct e; try discriminate; try (destruct (field_var _ _ _ _ _); [|discriminate]; injection H as <-; now right).
      destruct (zero_lit v); [|discriminate]. injection H as <-. exact It.
    - destruct e; try discriminate. destruct (field_var _ _ _ _ _); [|discriminate]. injection H as <-. now right.
    - destruct e; try discriminate. destruct (field_var _ _ _ _ _); [|discriminate]. injection H as <-. now right.
  Qed.
  Lemma slots_mono s L : forall l T T', slots G s L T l = Some T' -> incl T T'.
  Proof.
    induction l as [|[k e] l IH]; intros T T' H; cbn [slots] in H; [injection H as <-; apply incl_refl|].
    destruct (slot G s L T k e) as [T1|] eqn:E; [|discriminate]. eapply incl_tran; [eapply slot_mono; exact E|now apply IH].
  Qed.

  (** a field that is a name *)
  Lemma slot_name s L T e x T' : slot G s L T IntV e = Some T' -> plain_name e = Some x -> is_loop L x = false ->
    field_var G s L IntV (x, []) = true /\ In (x, []) T'.
  Proof.
    intros H Px NL. assert (E : e = EVar x [] \/ e = EIncons x []).
    { destruct e as [y iy|y iy| | | | | | |]; try discriminate; destruct iy; try discriminate; injection Px as ->; auto. }
    assert (H' : (if mem (x, []) T && field_var G s L IntV (x, []) then Some T
                  else match (if field_var G s L IntV (x, []) then Some (x, []) else None) with Some u => Some (u :: T) | None => None end) = Some T').
    { destruct E as [-> | ->]; cbn [slot known linear] in H; rewrite NL in H; exact H. }
    destruct (mem (x, []) T && field_var G s L IntV (x, [])) eqn:M.
    - apply andb_true_iff in M as [M F]. injection H' as <-. split; [exact F|]. now apply mem_In.
    - destruct (field_var G s L IntV (x, [])); [|discriminate]. injection H' as <-. split; [reflexivity|now left].
  Qed.
  Lemma kind_noloop s L T e x T' : slot G s L T IntV e = Some T' -> plain_name e = Some x -> has_kind G s x IntS = true -> is_loop L x = false.
  Proof.
    intros H Px K. destruct (is_loop L x) eqn:IL; [exfalso|reflexivity]. apply has_kind_eq in K.
    assert (E : e = EVar x [] \/ e = EIncons x []).
    { destruct e as [y iy|y iy| | | | | | |]; try discriminate; destruct iy; try discriminate; injection Px as ->; auto. }
    assert (N : no_name G s x = false) by (unfold no_name; rewrite K; apply andb_false_r).
    assert (F : field_var G s L IntV (x, []) = false) by (unfold field_var; cbn [fst]; now rewrite IL).
    destruct E as [-> | ->]; cbn [slot known linear] in H; rewrite IL, N, F in H; discriminate.
  Qed.

  Lemma slots_plain s L : forall l T T', slots G s L T l = Some T' ->
    forall x, In (x, []) (plain_vars s l) -> is_loop L x = false /\ In (x, []) T'.
  Proof.
    induction l as [|[k e] l IH]; intros T T' H x Ix; [destruct Ix|]. cbn [slots] in H. destruct (slot G s L T k e) as [T1|] eqn:E; [|discriminate].
    unfold plain_vars in Ix. cbn [flat_map fst snd] in Ix. apply in_app_or in Ix as [Ix|Ix]; [|now apply (IH _ _ H)].
    destruct k; try (destruct Ix; fail). destruct (plain_name e) as [y|] eqn:P; [|destruct Ix]. destruct (has_kind G s y IntS) eqn:K; [|destruct Ix].
    destruct Ix as [Ix|[]]. injection Ix as ->. pose proof (kind_noloop _ _ _ _ _ _ E P K) as NL. split; [exact NL|].
    apply (slots_mono _ _ _ _ _ H). now apply (slot_name _ _ _ _ _ _ E P NL).
  Qed.

  (** the writer's value of a name *)
  Lemma w_name s L sw x e v : wst s L sw -> field_var G s L IntV (x, []) = true -> plain_name e = Some x ->
    eval_known depth (scope_of sw) false false e = Ok v -> typed IntV v ->
    path_get (at_path sw x []) (VDict D) = Some v /\ printable wo ro IntV v.
  Proof.
    intros W F Px Ev [n ->]. unfold eval_known in Ev.
    assert (Ev' : exists t, eval_var depth (scope_of sw) false false false x [] = Ok t /\ fst (fst t) = VNum n).
    { destruct e as [y iy|y iy| | | | | | |]; try discriminate; destruct iy; try discriminate; injection Px as ->;
        rewrite eval_expr_eq in Ev; dlin Ev c0 k0 u0; injection Ev as <-; eexists; split; eauto. }
    destruct Ev' as (t & Et & Ft).
    destruct (w_var_raw wo ro G GG D CD _ _ _ IntV _ _ _ _ _ _ W F Et Ft) as (_ & _ & idcs & Ei & Hp & Pb).
    - intros [d Q]; discriminate.
    - cbn [shaped]. eauto.
    - injection Ei as <-. auto.
  Qed.
  Lemma pow_le : 2 ^ 53 <= 2 ^ 106. Proof. apply Z.pow_le_mono_r; lia. Qed.

  Lemma slot_bounded s L T k e T' sw v : wst s L sw -> slot G s L T k e = Some T' ->
    eval_known depth (scope_of sw) false false e = Ok v -> bounded L (k, e) v.
  Proof.
    intros W Sl Ev Kd Sm w ->. cbn [fst snd] in *. subst k. pose proof pow_le as P53.
    assert (Nm : forall x, plain_name e = Some x -> is_loop L x = false -> Z.abs w <= 2 ^ 106).
    { intros x Px NL. destruct (slot_name _ _ _ _ _ _ Sl Px NL) as [F _].
      destruct (w_name _ _ _ _ _ _ W F Px Ev) as [_ Pb]; [eexists; reflexivity|].
      destruct (printable_ofint _ _ _ Pb) as (i & Q & B). injection Q as ->. lia. }
    destruct e as [x ix|x ix|de m|a|a b|a b|a b|a b|a b]; try discriminate; cbn [small_field] in Sm.
    - destruct ix; [|discriminate]. apply negb_true_iff in Sm. now apply (Nm x).
    - destruct ix; [|discriminate]. apply negb_true_iff in Sm. now apply (Nm x).
    - destruct m as [z| |]; try discriminate. apply Z.leb_le in Sm. unfold eval_known in Ev. rewrite eval_expr_eq in Ev. cbn [bind] in Ev. injection Ev as <-. lia.
    - destruct a as [| |de m| | | | | |]; try discriminate. destruct m as [z| |]; try discriminate.
      destruct b as [x ix| | | | | | | |]; try discriminate. destruct ix; [|discriminate].
      apply andb_true_iff in Sm as [Sz NL]. apply Z.leb_le in Sz. apply negb_true_iff in NL.
      assert (F : field_var G s L IntV (x, []) = true).
      { cbn [slot] in Sl. destruct (known G s L T (EMul (ENum de (NInt z)) (EVar x []))) eqn:K.
        - cbn [known] in K. rewrite NL in K. apply andb_true_iff in K as [_ K]. now apply andb_true_iff in K as [_ K].
        - cbn [linear] in Sl. destruct (factor G s L T (EVar x [])); [discriminate|]. destruct (factor G s L T (ENum de (NInt z))); [|discriminate]. destruct (field_var G s L IntV (x, [])); [reflexivity|discriminate]. }
      unfold eval_known in Ev. rewrite eval_expr_eq in Ev. cbv zeta in Ev.
      assert (E1 : eval_expr depth (scope_of sw) false false false (ENum de (NInt z)) = Ok (vint z, vint 0, None)) by now rewrite eval_expr_eq.
      rewrite E1 in Ev. cbn [bind] in Ev. destruct (eval_expr depth (scope_of sw) false false false (EVar x [])) as [[[c2 k2] u2]|] eqn:E2; [|discriminate].
      cbn [bind] in Ev. change (coef0 (vint 0)) with true in Ev. cbn [negb andb] in Ev.
      destruct (math_mul (vint z) c2) as [c|] eqn:Mu; [|discriminate]. cbn [bind] in Ev. destruct (math_mul (vint z) k2); [|discriminate]. injection Ev as ->.
      assert (exists n, c2 = VNum n) as [n ->].
      { destruct c2; try discriminate; [eexists; reflexivity|]. exfalso. revert Mu. unfold math_mul, math_op. cbn [vint as_num bind].
        destruct (mapM _ _); discriminate. }
      assert (Ev2 : eval_known depth (scope_of sw) false false (EVar x []) = Ok (VNum n)) by (unfold eval_known; now rewrite E2).
      destruct (w_name _ _ _ x (EVar x []) _ W F eq_refl Ev2) as [_ Pb]; [eexists; reflexivity|].
      destruct (printable_ofint _ _ _ Pb) as (i & Q & B). injection Q as ->. change (math_mul (vint z) (VNum (NInt i))) with (@Ok val (vint (z * i))) in Mu. injection Mu as <-.
      change (2 ^ 106) with (2 ^ 53 * 2 ^ 53). rewrite Z.abs_mul. nia.
  Qed.
  Lemma slots_bounded s L sw : wst s L sw -> forall l T T' vs, slots G s L T l = Some T' ->
    mapM (eval_known depth (scope_of sw) false false) (map snd l) = Ok vs -> Forall2 (bounded L) l vs.
  Proof.
    intros W. induction l as [|[k e] l IH]; intros T T' vs Sl Ev; cbn [map snd mapM] in Ev; [injection Ev as <-; constructor|].
    cbn [slots] in Sl. destruct (slot G s L T k e) as [T1|] eqn:E; [|discriminate].
    destruct (eval_known depth (scope_of sw) false false e) as [v|] eqn:Ee; [|discriminate]. cbn [bind] in Ev.
    destruct (mapM _ (map snd l)) as [vs'|] eqn:Es; [|discriminate]. injection Ev as <-. constructor; [eapply slot_bounded; eauto|eapply IH; eauto].
  Qed.

  Lemma with_simp p s L O T T0 T' mw mr : sim_with wo ro G D (starts wo ro depth p) s L O T T' mw mr ->
    slots G s L T (fs_slots p) = Some T0 -> incl T0 T' -> simp (begun s L p) s L O T T' mw mr.
  Proof.
    intros S Sl Inc sw sw' W H. destruct (S _ _ W H) as (W' & K & new & En & R). split; [exact W'|]. split; [exact K|]. exists new. split; [exact En|].
    intros F sr I A. destruct (R F sr I A) as ((vs & vals & c & o & V1 & V2 & V3 & V4) & sr' & Q1 & Q2 & Q3 & Q4 & Q5 & Q6 & Q7). exists sr'.
    do 7 (split; [assumption|]). exists vs, vals, c, o. do 4 (split; [assumption|]). split; [eapply slots_bounded; [exact W|exact Sl|exact V1]|]. split.
    - intros x Ix. now apply (slots_plain _ _ _ _ _ Sl).
    - intros t It. apply (instep_toks _ _ _ _ _ _ _ _ _ _ Q2). apply Inc. assert (exists x, t = (x, [])) as [x ->].
      { unfold plain_vars in It. apply in_flat_map in It as ([k e] & _ & It). cbn [fst snd] in It. destruct k; try (destruct It; fail).
        destruct (plain_name e) as [y|]; [|destruct It]. destruct (has_kind G s y IntS); [|destruct It]. destruct It as [<-|[]]. eauto. }
      now apply (slots_plain _ _ _ _ _ Sl).
  Qed.

  Lemma items_mono : forall b s L O T T', list_items G s L O T b = Some T' -> incl T T'.
  Proof.
    induction b as [|i r IH]; intros s L O T T' H; [cbn in H; injection H as <-; apply incl_refl|].
    rewrite items_cons_eq in H. destruct (list_item1 G s L O T i) as [T1|] eqn:E; [|discriminate]. eapply incl_tran; [|eapply IH; exact H].
    destruct i as [e| |v a b body].
    - cbn [list_item1] in E. eapply slot_mono; exact E.
    - cbn in E. injection E as <-. apply incl_refl.
    - rewrite items_loop_eq in E. destruct (_ && _ && _); [|discriminate]. destruct (list_items _ _ _ _ _ _); [|discriminate]. injection E as <-. apply incl_refl.
  Qed.

  Let cols := (6 * w_width wo)%nat.

  Lemma begun_record i r p s L O T T' : readable G cols s L O T i = Some T' -> first_record (BCons i r) = Some p ->
    simp (begun s L p) s L O T T' (exec EW i) (exec ER i).
  Proof.
    intros Rd Fr.
    assert (Gd : forall mw mr, exec EW i = guarded true mw -> exec ER i = guarded true mr -> simp (begun s L p) s L O T T' mw mr ->
      simp (begun s L p) s L O T T' (exec EW i) (exec ER i)).
    { intros mw mr E1 E2 S. rewrite E1, E2. eapply simp_eq; [exact S| |]; intros st Ls; now apply proceed_none. }
    destruct i; try discriminate; injection Fr as <-.
    - eapply Gd; [reflexivity|reflexivity|]. pose proof Rd as Rd'. cbn [readable] in Rd'. destruct (negb head || at_top s); [|discriminate].
      destruct (slots G s L T (cont_slots f)) as [T0|] eqn:Sl; [|discriminate]. injection Rd' as E.
      eapply with_simp; [eapply sim_cont_with; eauto|exact Sl|]. rewrite <- E. destruct head; [intros t It; right; right; right; exact It|apply incl_refl].
    - eapply Gd; [reflexivity|reflexivity|]. pose proof Rd as Rd'. cbn [readable] in Rd'.
      destruct (slots G s L T [(FltV, f_c1 f); (FltV, f_c2 f); (IntV, f_l1 f); (IntV, f_l2 f)]) as [T0|] eqn:Sl; [|discriminate].
      apply named_inv in Rd' as (_ & T1 & Sl2 & E).
      eapply with_simp; [eapply sim_tab1_with; eauto|exact Sl|]. rewrite E. destruct name as [u|]; cbn [out_T sub_T sub_s] in *; [apply incl_refl|].
      exact (slots_mono _ _ _ _ _ Sl2).
    - eapply Gd; [reflexivity|reflexivity|]. pose proof Rd as Rd'. apply list_readable in Rd' as (T0 & T1 & Sl & _ & Li & E).
      eapply with_simp; [eapply sim_list_with; eauto|exact Sl|]. rewrite E. destruct name as [u|]; cbn [out_T sub_T sub_s] in *; [apply incl_refl|].
      exact (items_mono _ _ _ _ _ _ Li).
  Qed.
  (** ** Conditions that are decided *)

  Definition control_var (s L : list str) (O : list (list str * list extvar)) (x : str) (ix : list idx) : bool :=
    if is_loop L x then no_name G s x else resolved G O x ix.

  Lemma vars_mentions e : forall x ix, In (x, ix) (vars_of e) -> mentions x e = true.
  Proof.
    induction e as [x ix|x ix|de v|a IH|a IHa b IHb|a IHa b IHb|a IHa b IHb|a IHa b IHb|a IHa b IHb]; intros y iy Iy; cbn [vars_of] in Iy; cbn [mentions].
    1, 2: destruct Iy as [Q|[]]; injection Q as <- <-; apply str_eqb_refl'.
    1: destruct Iy. 1: eapply IH; eauto.
    all: apply in_app_or in Iy as [Iy|Iy]; [erewrite IHa by eauto; reflexivity|erewrite IHb by eauto; apply orb_true_r].
  Qed.

  Lemma control_vars s T L O e : control G L ((s, T) :: O) e = true -> forall x ix, In (x, ix) (vars_of e) -> control_var s L ((s, T) :: O) x ix = true.
  Proof.
    induction e as [x ix|x ix|de v|a IH|a IHa b IHb|a IHa b IHb|a IHa b IHb|a IHa b IHb|a IHa b IHb]; intros C y iy Iy; cbn [vars_of] in Iy.
    1, 2: destruct Iy as [Q|[]]; injection Q as <- <-; exact C.
    1: destruct Iy. 1: now apply IH.
    all: cbn [control] in C; apply andb_true_iff in C as [Ca Cb]; apply in_app_or in Iy as [Iy|Iy]; auto.
  Qed.

  Definition both_int (sc1 sc2 : scope) (x : str) (ix : list idx) : Prop :=
    exists z, get_raw sc1 true x ix = Ok (vint z) /\ get_raw sc2 true x ix = Ok (vint z).

  Lemma decided_eval sc1 sc2 s T L O e : (forall x ix, mentions x e = true -> control_var s L ((s, T) :: O) x ix = true -> both_int sc1 sc2 x ix) ->
    control G L ((s, T) :: O) e = true -> eval_known depth sc1 true true e = eval_known depth sc2 true true e.
  Proof.
    intros H C. unfold eval_known. rewrite (eval_agree depth sc1 sc2); [reflexivity|]. intros x ix Ix.
    destruct (H x ix (vars_mentions _ _ _ Ix) (control_vars _ _ _ _ _ C _ _ Ix)) as (z & E1 & E2). rewrite E1, E2. split; [reflexivity|]. intros a; discriminate.
  Qed.

  Lemma rel_value en sc x de z v : e_depth en = depth -> get_raw sc true x [] = Ok (vint v) ->
    truthvalue en sc (CRel REq (EVar x []) (ENum de (NInt z))) = Ok (v =? z).
  Proof.
    intros Ed H. cbn [truthvalue]. unfold eval_relation, eval_known. rewrite Ed, !eval_expr_eq. rewrite (eval_var_ok _ _ _ _ _ _ _ _ H) by (intros a; discriminate).
    cbn [bind val_cmp val_eqb vint]. f_equal. unfold num_eqb, num_cmp. cbn [sf_of num_num num_den]. rewrite !Z.mul_1_r, Z.eqb_compare. reflexivity.
  Qed.

  Lemma excludes_value en sc x z v : e_depth en = depth -> get_raw sc true x [] = Ok (vint v) ->
    forall q, excludes x z q = true -> truthvalue en sc q = Ok true -> v <> z.
  Proof.
    intros Ed H. induction q as [r a b|a IHa b IHb|a IHa b IHb]; intros E Tq.
    - destruct r; try discriminate. destruct a as [y iy| | | | | | | |]; try discriminate. destruct iy; [|discriminate].
      destruct b as [| |de n| | | | | |]; try discriminate. destruct n as [z'| |]; try discriminate. cbn [excludes] in E.
      apply andb_true_iff in E as [E1 E2]. apply str_eqb_eq in E1 as <-. apply negb_true_iff in E2. apply Z.eqb_neq in E2.
      rewrite (rel_value _ _ _ _ _ _ Ed H) in Tq. injection Tq as Tq. apply Z.eqb_eq in Tq. congruence.
    - cbn [truthvalue] in Tq. destruct (truthvalue en sc a) as [[|]|]; try discriminate. cbn [bind] in Tq. cbn [excludes] in E.
      apply orb_true_iff in E as [E|E]; auto.
    - cbn [truthvalue] in Tq. destruct (truthvalue en sc a) as [[|]|]; try discriminate; cbn [bind] in Tq; cbn [excludes] in E; apply andb_true_iff in E as [E1 E2]; auto.
  Qed.

  Lemma decided_truth e1 e2 sc1 sc2 s T L O q c : e_depth e1 = depth -> e_depth e2 = depth ->
    (forall x ix, cond_mentions x c = true -> control_var s L ((s, T) :: O) x ix = true -> both_int sc1 sc2 x ix) ->
    match q with Some a => truthvalue e1 sc1 a = Ok true | None => True end ->
    decided G L ((s, T) :: O) q c = true -> truthvalue e1 sc1 c = truthvalue e2 sc2 c.
  Proof.
    intros D1 D2 H Tq. revert H. induction c as [r a b|a IHa b IHb|a IHa b IHb]; intros H Dc; cbn [decided] in Dc; apply andb_true_iff in Dc as [Da Db]; cbn [cond_mentions] in H.
    - cbn [truthvalue]. unfold eval_relation. rewrite D1, D2.
      rewrite (decided_eval sc1 sc2 s T L O a), (decided_eval sc1 sc2 s T L O b); auto; intros x ix Mx; apply H; rewrite Mx; [apply orb_true_r|reflexivity].
    - cbn [truthvalue]. assert (Ea : truthvalue e1 sc1 a = truthvalue e2 sc2 a) by (apply IHa; [intros x ix Mx; apply H; now rewrite Mx|exact Da]).
      apply orb_true_iff in Db as [Rf|Db].
      + destruct q as [q|]; [|discriminate]. unfold refutes in Rf. destruct a as [r a b'| |]; try discriminate. destruct r; try discriminate.
        destruct a as [x iy| | | | | | | |]; try discriminate. destruct iy; [|discriminate].
        destruct b' as [| |de n| | | | | |]; try discriminate. destruct n as [z| |]; try discriminate.
        cbn [decided] in Da. apply andb_true_iff in Da as [Da _].
        destruct (H x []) as (v & V1 & V2); [cbn [cond_mentions mentions]; now rewrite str_eqb_refl'|exact Da|].
        rewrite (rel_value _ _ _ _ _ _ D1 V1), (rel_value _ _ _ _ _ _ D2 V2).
        rewrite (proj2 (Z.eqb_neq v z)); [reflexivity|]. exact (excludes_value _ _ _ _ _ D1 V1 _ Rf Tq).
      + rewrite Ea, (IHb (fun x ix Mx => H x ix ltac:(now rewrite Mx, orb_true_r)) Db). reflexivity.
    - cbn [truthvalue]. rewrite (IHa (fun x ix Mx => H x ix ltac:(now rewrite Mx)) Da), (IHb (fun x ix Mx => H x ix ltac:(now rewrite Mx, orb_true_r)) Db). reflexivity.
  Qed.

  (** ** The variables during lookahead *)

  Lemma look_kept st d2 p v : opened (ps_up st) -> (forall k u, dget k (ps_dic st) = Some u -> dget k d2 = Some u) ->
    look st p = Some v -> ~ is_dict v -> look (set_dic d2 st) p = Some v.
  Proof.
    intros Op Kp H N. unfold look in *. cbn [set_dic ps_up ps_dic]. destruct (prefix_dec (pre (ps_up st)) p) as [[q ->]|Np].
    - rewrite root_in in * by exact Op. destruct q as [|k q]; [injection H as <-; destruct N; eexists; reflexivity|]. cbn [path_get] in *.
      destruct (dget k (ps_dic st)) as [u|] eqn:E; [|discriminate]. now rewrite (Kp _ _ E).
    - eapply shape_leaf; [apply (root_out _ (ps_dic st) d2 Op p Np)|exact H|exact N].
  Qed.
  Lemma known_kept a b O : ps_loops b = ps_loops a -> (forall p v, look a p = Some v -> ~ is_dict v -> look b p = Some v) ->
    forall up, known_levels wo ro G D a up O -> known_levels wo ro G D b up O.
  Proof.
    intros El Kp. induction O as [|[s T] O IH]; intros up K; [exact K|]. cbn [known_levels] in *. destruct K as (E & TK & K). split; [exact E|]. split.
    - intros t It. destruct (TK t It) as (idcs & v & v' & k & Ei & U & Hl & Hv & Kk & X). exists idcs, v, v', k. rewrite El.
      destruct (printed_leaf _ _ _ _ _ X) as [_ N]. auto 10.
    - destruct up; [exact K|now apply IH].
  Qed.
  Lemma named_kept s L st d2 : shape_ok G s L st -> named_only G st -> (forall k u, dget k (ps_dic st) = Some u -> dget k d2 = Some u) ->
    (forall k, (forall x, k = KStr x -> scalar_name G s L x = false) -> dget k d2 = dget k (ps_dic st)) ->
    (forall x, scalar_name G s L x = true -> dget (KStr x) d2 = None \/ exists n, dget (KStr x) d2 = Some (VNum n)) ->
    named_only G (set_dic d2 st).
  Proof.
    intros S NM Kp Ot Nw q x U K. pose proof (NM q x U K) as N0. unfold look in *. cbn [set_dic ps_up ps_dic].
    destruct (prefix_dec (pre (ps_up st)) (q ++ [KStr x])) as [[r E]|Np].
    - rewrite E in *. rewrite root_in in * by apply (so_open _ _ _ _ S). destruct r as [|k r].
      + exfalso. rewrite kind_pre in K by apply (so_sec _ _ _ _ S). discriminate.
      + cbn [path_get] in *. destruct (dget k (ps_dic st)) as [u|] eqn:Ek; [now rewrite (Kp _ _ Ek)|].
        destruct k as [i|y].
        1: rewrite (Ot (KInt i)), Ek; [reflexivity|]. intros x' Ex. discriminate.
        destruct (scalar_name G s L y) eqn:Sy.
          * destruct (Nw y Sy) as [->|[n ->]]; [reflexivity|]. destruct r; [|reflexivity]. exfalso.
             rewrite kind_pre in K by apply (so_sec _ _ _ _ S). rewrite <- (so_names _ _ _ _ S) in K. cbn [kind_at] in K.
             unfold scalar_name in Sy. apply andb_true_iff in Sy as [_ Sy]. destruct (G s y); discriminate.
          * rewrite (Ot (KStr y)), Ek; [reflexivity|]. intros x' Ex. injection Ex as <-. exact Sy.
    - eapply shape_none; [apply (root_out _ (ps_dic st) d2 (so_open _ _ _ _ S) _ Np)|exact N0].
  Qed.
  Definition shared_at (s : list str) (all p q : list (kind * expr)) (vs vals : list val) (x : str) : Prop :=
    exists e e' v v', In ((IntV, e), v') (combine p vals) /\ plain_name e = Some x /\ In ((IntV, e'), v) (combine q vs) /\ plain_name e' = Some x /\
      printed wo ro IntV v v' /\ has_kind G s x IntS = true /\ length (filter (fun f => mentions x (snd f)) all) = 1%nat.
  Lemma shared_in s L all x : forall p q vs vals, In (x, []) (shared G s all p q) -> fitting L p q = true -> Forall3 (printed wo ro) (map fst q) vs vals ->
    shared_at s all p q vs vals x.
  Proof.
    induction p as [|[k e] p IH]; intros q vs vals It Ft F3; [destruct It|]. destruct q as [|[k' e'] q]; [discriminate|].
    cbn [map fst] in F3. inversion F3 as [|a b c l m n Pv F3' E1 E2 E3]; subst.
    cbn [fitting] in Ft. rewrite !andb_true_iff in Ft. destruct Ft as [[Ek _] Ft].
    assert (X : In (x, []) (shared G s all p q) -> shared_at s all ((k, e) :: p) ((k', e') :: q) (b :: m) (c :: n) x).
    { intros I'. destruct (IH _ _ _ I' Ft F3') as (e1 & e2 & v & v' & H1 & H2 & H3 & H). exists e1, e2, v, v'. cbn [combine].
      split; [now right|]. split; [exact H2|]. split; [now right|exact H]. }
    cbn [shared] in It. destruct k; auto. destruct k'; auto. destruct (plain_name e) as [y|] eqn:P1; auto. destruct (plain_name e') as [y'|] eqn:P2; auto.
    destruct (str_eqb y y' && has_kind G s y IntS && _) eqn:C; auto. destruct It as [E|It]; auto.
    injection E as ->. rewrite !andb_true_iff in C. destruct C as [[C1 C2] C3]. apply str_eqb_eq in C1 as <-. apply Nat.eqb_eq in C3.
    exists e, e', b, c. cbn [combine]. split; [now left|]. split; [exact P1|]. split; [now left|]. auto.
  Qed.
  Lemma shared_plain s all : forall p q t, In t (shared G s all p q) -> exists x, t = (x, []).
  Proof.
    induction p as [|[k e] p IH]; intros q t It; [destruct It|]. destruct q as [|[k' e'] q]; [destruct k; destruct It|].
    assert (X : In t (shared G s all p q) -> exists x, t = (x, [])) by apply IH.
    cbn [shared] in It. destruct k; auto. destruct k'; auto. destruct (plain_name e) as [x|]; auto. destruct (plain_name e') as [y|]; auto.
    destruct (_ && _ && _); auto. destruct It as [<-|It]; eauto.
  Qed.
  Lemma shared_vars s all : forall p q x, In (x, []) (shared G s all p q) -> In (x, []) (plain_vars s q).
  Proof.
    induction p as [|[k e] p IH]; intros q x It; [destruct It|]. destruct q as [|[k' e'] q]; [destruct k; destruct It|].
    assert (X : In (x, []) (shared G s all p q) -> In (x, []) (plain_vars s ((k', e') :: q))) by (intros I'; unfold plain_vars; cbn [flat_map]; apply in_or_app; right; now apply IH).
    cbn [shared] in It. destruct k; auto. destruct k'; auto. destruct (plain_name e) as [y|]; auto. destruct (plain_name e') as [y'|] eqn:P2; auto.
    destruct (str_eqb y y' && has_kind G s y IntS && _) eqn:C; auto. destruct It as [E|It]; auto.
    injection E as ->. rewrite !andb_true_iff in C. destruct C as [[C1 C2] C3]. apply str_eqb_eq in C1 as <-.
    unfold plain_vars. cbn [flat_map fst snd]. rewrite P2, C2. now left.
  Qed.

  Lemma mapM_combine {A} (f : expr -> result A) : forall (l : list (kind * expr)) vs ke v, mapM f (map snd l) = Ok vs -> In (ke, v) (combine l vs) -> f (snd ke) = Ok v.
  Proof.
    induction l as [|[k e] l IH]; intros vs ke v H I'; [destruct I'|]. cbn [map snd mapM] in H.
    destruct (f e) as [a|] eqn:E; [|discriminate]. cbn [bind] in H. destruct (mapM f (map snd l)) as [m|] eqn:Em; [|discriminate]. injection H as <-.
    destruct I' as [I'|I']; [injection I' as <- <-; exact E|]. eapply IH; eauto.
  Qed.

  Definition number_slots (l : list (kind * expr)) : Prop := Forall (fun ke => fst ke = IntV \/ fst ke = FltV) l.
  Lemma first_kinds b p : first_record b = Some p -> number_slots (fs_slots p).
  Proof.
    destruct b as [|i r]; [discriminate|]. destruct i; try discriminate; intros H; injection H as <-; unfold number_slots; cbn [fs_slots cont_slots];
      repeat (constructor; [cbn [fst]; auto|]); constructor.
  Qed.

  Lemma peek_vals s L : forall p q seen vs vals, peekable G s L seen p = true -> number_slots p -> fitting L p q = true ->
    Forall3 (printed wo ro) (map fst q) vs vals -> Forall2 (bounded L) q vs -> Forall2 peek_val p vals.
  Proof.
    induction p as [|[k e] p IH]; intros q seen vs vals Pk Ns Ft F3 Fb.
    - destruct q; [|discriminate]. inversion F3; subst. constructor.
    - destruct q as [|[k' e'] q]; [discriminate|]. cbn [map fst] in F3. inversion F3 as [|a b c l m n Pv F3' E1 E2 E3]; subst. inversion Fb as [|? ? ? ? Bv Fb']; subst.
      cbn [fitting] in Ft. rewrite !andb_true_iff in Ft. destruct Ft as [[Ek Fi] Ft]. apply kind_eqb_eq in Ek as <-. inversion Ns as [|? ? N1 N2]; subst. cbn [fst] in N1.
      cbn [peekable] in Pk. apply andb_true_iff in Pk as [Pe Pk].
      constructor; [|eapply IH; eauto]. split.
      + destruct N1 as [-> | ->]; inversion Pv; subst; try discriminate; eexists; reflexivity.
      + cbn [snd]. intros Np. assert (k = IntV) as ->.
        { destruct e as [x ix|x ix|de v|a|a b'|a b'|a b'|a b'|a b']; try discriminate. destruct a as [| |de n0| | | | | |]; try discriminate. destruct n0 as [z| |]; try discriminate.
          destruct b' as [x ix| | | | | | | |]; try discriminate. destruct ix; [|discriminate].
          rewrite !andb_true_iff in Pe. destruct Pe as [[[[_ Pe] _] _] _]. now apply kind_eqb_eq in Pe. }
        rewrite Np in Fi. cbn [orb] in Fi. destruct (printed_ofint _ _ IntV _ _ eq_refl Pv) as (w & -> & ->). exists w. split; [reflexivity|]. exact (Bv eq_refl Fi w eq_refl).
  Qed.

  Lemma same_spec_eq a b : same_spec a b = true -> a = b.
  Proof.
    assert (X : forall x y, spec_eqb x y = true -> x = y).
    { intros [x|] [y|] E; try discriminate; [apply Z.eqb_eq in E as ->|]; reflexivity. }
    unfold same_spec. rewrite !andb_true_iff. intros [[E1 E2] E3]. apply X in E1, E2, E3. destruct a, b; cbn in *; congruence.
  Qed.
  Lemma same_header a b st : same_record a b = true -> header ro a st = header ro b st.
  Proof. destruct a, b; try discriminate; reflexivity. Qed.
  Lemma user_here s L st x k : shape_ok G s L st -> G s x = Some k -> user_path (pre (ps_up st) ++ [KStr x]).
  Proof.
    intros S K. apply user_app. split; [apply (user_pre G GG), (so_sec _ _ _ _ S)|apply (user_str x [])]. eapply schema_user; eauto.
  Qed.
  Lemma kind_here s L st x k : shape_ok G s L st -> G s x = Some k -> kind_at G [] SecV (pre (ps_up st) ++ [KStr x]) = Some k.
  Proof. intros S K. rewrite (so_names _ _ _ _ S) in K. exact (kind_var G (ps_up st) x [] k (so_sec _ _ _ _ S) K). Qed.

  Lemma look_levels s L O T sw sr (p q : first) vs vals d2 : wst s L sw -> instep s L O T sw sr ->
    mapM (eval_known depth (scope_of sw) false false) (map snd (fs_slots q)) = Ok vs ->
    Forall3 (printed wo ro) (map fst (fs_slots q)) vs vals -> fitting L (fs_slots p) (fs_slots q) = true ->
    (forall x, In (x, []) (plain_vars s (fs_slots q)) -> is_loop L x = false) ->
    (forall k u, dget k (ps_dic sr) = Some u -> dget k d2 = Some u) ->
    (forall x ke v, In (ke, v) (combine (fs_slots p) vals) -> plain_name (snd ke) = Some x ->
       length (filter (fun f => mentions x (snd f)) (fs_slots p)) = 1%nat -> dget (KStr x) (ps_dic sr) = None -> dget (KStr x) d2 = Some v) ->
    known_levels wo ro G D (set_dic d2 sr) (ps_up sr) ((s, shared G s (fs_slots p) (fs_slots p) (fs_slots q) ++ T) :: O).
  Proof.
    intros W I Ev F3 Ft NLp Kp En. pose proof (is_rst _ _ _ _ _ _ _ _ _ _ I) as [S (P & _)].
    assert (K0 : known_levels wo ro G D (set_dic d2 sr) (ps_up sr) ((s, T) :: O)).
    { apply (known_kept sr); [reflexivity| |apply levels_known; [exact P|apply (is_lv _ _ _ _ _ _ _ _ _ _ I)]].
      intros a v Ha N. eapply look_kept; eauto. apply (so_open _ _ _ _ S). }
    cbn [known_levels] in *. destruct K0 as (Es & TK & K0). split; [exact Es|]. split; [|exact K0].
    intros t It. apply in_app_or in It as [It|It]; [|now apply TK].
    destruct (shared_plain _ _ _ _ _ It) as [x ->]. destruct (shared_in _ L _ _ _ _ _ _ It Ft F3) as (e & e' & v & v' & H1 & P1 & H2 & P2 & Pv & K & Cn).
    pose proof (NLp x (shared_vars _ _ _ _ _ It)) as NL. apply has_kind_eq in K as Kx.
    assert (F : field_var G s L IntV (x, []) = true) by (unfold field_var, may_hold; cbn [fst snd forallb]; rewrite NL, Kx; reflexivity).
    pose proof (mapM_combine _ _ _ _ _ Ev H2) as Ee. cbn [snd] in Ee.
    destruct (printed_ofint _ _ IntV _ _ eq_refl Pv) as (z & -> & ->).
    destruct (w_name _ _ _ _ _ _ W F P2 Ee) as [Hd _]; [eexists; reflexivity|].
    unfold at_path in Hd. rewrite (aligned_pre _ _ (is_al _ _ _ _ _ _ _ _ _ _ I)) in Hd.
    pose proof (user_here _ _ _ _ _ S Kx) as U. pose proof (kind_here _ _ _ _ _ S Kx) as Kh.
    exists [], (vint z), (vint z), IntS. split; [reflexivity|]. cbn [fst map]. split; [exact U|]. split; [|split; [exact Hd|split; [exact Kh|constructor; reflexivity]]].
    unfold look. cbn [set_dic ps_up ps_dic]. rewrite <- root_dget by apply (so_open _ _ _ _ S).
    destruct (dget (KStr x) (ps_dic sr)) as [u|] eqn:Eu; [|eapply En; eauto].
    rewrite (Kp _ _ Eu). f_equal. rewrite (root_dget (ps_up sr)) in Eu by apply (so_open _ _ _ _ S).
    destruct (P _ _ U Eu) as (w & Hw & X). cbn [map] in Hd. rewrite Hd in Hw. injection Hw as <-. destruct X as [[[d X] _]|(k & Kk & X)]; [discriminate|].
    rewrite Kh in Kk. injection Kk as <-. destruct (printed_ofint _ _ IntS _ _ eq_refl X) as (i & Q & ->). now rewrite Q.
  Qed.

  Lemma look_peek s L O T sw sr : instep s L O T sw sr -> peek_ok G s L [] (set_look (Some 1) (set_opts (all_ignored (ps_opts sr)) sr)).
  Proof.
    intros I. pose proof (is_rst _ _ _ _ _ _ _ _ _ _ I) as [S (P & _ & Fz)].
    assert (X : forall x k u, G s x = Some k -> scalar k = true -> dget (KStr x) (ps_dic sr) = Some u -> exists v, printed wo ro k v u).
    { intros x k u K Sk H. pose proof (user_here _ _ _ _ _ S K) as U. pose proof (kind_here _ _ _ _ _ S K) as Kh.
      rewrite (root_dget (ps_up sr)) in H by apply (so_open _ _ _ _ S). destruct (P _ _ U H) as (v & Hv & [[Dv _]|(k' & K' & X)]).
      - exfalso. destruct (CD _ _ U Hv) as (k' & K' & [[_ Q]|Q]); [congruence|]. exact (printable_leaf _ _ _ _ Q Dv).
      - exists v. congruence. }
    assert (Sc : forall x, scalar_name G s L x = true -> is_loop L x = false /\ exists k, G s x = Some k /\ scalar k = true).
    { intros x Sx. unfold scalar_name in Sx. apply andb_true_iff in Sx as [NL Sx]. apply negb_true_iff in NL. split; [exact NL|]. destruct (G s x) as [k|]; [eauto|discriminate]. }
    constructor.
    - reflexivity.
    - exact Fz.
    - intros x Sx. destruct (Sc x Sx) as [NL _]. exact (loop_none _ _ _ _ _ S NL).
    - intros x Sx. destruct (Sc x Sx) as (_ & k & K & Sk). cbn [set_look set_opts ps_dic]. destruct (dget (KStr x) (ps_dic sr)) as [u|] eqn:Eu; [right|now left].
      destruct (X _ _ _ K Sk Eu) as [v Pv]. destruct k; try discriminate; inversion Pv; subst; try discriminate; eexists; reflexivity.
    - intros x Sx Kx _. destruct (Sc x Sx) as (_ & k & K & Sk). cbn [set_look set_opts ps_dic]. destruct (dget (KStr x) (ps_dic sr)) as [u|] eqn:Eu; [right|now left].
      apply has_kind_eq in Kx. destruct (X _ _ _ Kx eq_refl Eu) as [v Pv]. destruct (printed_ofint _ _ IntS _ _ eq_refl Pv) as (z & _ & ->). eauto.
  Qed.

  Definition head_ok (s : list str) (c : cond) (t : rtype) : bool :=
    match t with RCont true => at_top s && negb (existsb (fun u : extvar => cond_mentions (fst u) c) ctrl_vars) | _ => true end.
  Definition look_vars (s : list str) (p : first) (q : SpecRound.look) : list extvar := shared G s (fs_slots p) (fs_slots p) (fs_slots (fst q)).

  Lemma head_raw s L st c p k d2 x ix : shape_ok G s L st -> head_ok s c (fs_type p) = true -> cond_mentions x c = true ->
    get_raw (scope_of (set_dic (after_head (fs_type p) k d2) st)) true x ix = get_raw (scope_of (set_dic d2 st)) true x ix.
  Proof.
    intros S Hk Mx. destruct (fs_type p) as [[|]| |]; try reflexivity. cbn [head_ok] in Hk. apply andb_true_iff in Hk as [At Hk]. destruct s; [|discriminate].
    pose proof (top_up G _ _ S) as U. apply negb_true_iff in Hk. cbn [existsb ctrl_vars fst] in Hk. rewrite !orb_false_iff in Hk. destruct Hk as (H1 & H2 & H3 & _).
    unfold get_raw. cbn [scope_of set_dic ps_up ps_loops ps_dic sc_loops sc_dic sc_up]. rewrite U. cbn [find_up]. cbn [after_head].
    assert (N1 : KStr x <> KStr $"MAT") by (intros Q; injection Q as ->; exact (eq_true_false_abs _ Mx H1)).
    assert (N2 : KStr x <> KStr $"MF") by (intros Q; injection Q as ->; exact (eq_true_false_abs _ Mx H2)).
    assert (N3 : KStr x <> KStr $"MT") by (intros Q; injection Q as ->; exact (eq_true_false_abs _ Mx H3)).
    rewrite (dget_dset_other _ _ _ _ N3), (dget_dset_other _ _ _ _ N2), (dget_dset_other _ _ _ _ N1). reflexivity.
  Qed.

  Lemma look_scope s L O T sw sr sr' c p (q : SpecRound.look) body : wst s L sw -> instep s L O T sw sr -> first_record body = Some p ->
    peekable G s L [] (fs_slots p) = true -> head_ok s c (fs_type p) = true -> look_at G s L O T c p q = true -> begun s L (fst q) sw sr sr' ->
    exists st2, exec_block ER body (set_look (Some 1) (set_opts (all_ignored (ps_opts sr)) sr)) = (Ok tt, st2) /\ ps_up st2 = ps_up sr /\
      (forall x ix, cond_mentions x c = true -> control_var s L ((s, look_vars s p q ++ T) :: O) x ix = true -> both_int (scope_of sw) (scope_of st2) x ix).
  Proof.
    intros W I Fr Pk Hk La (vs & vals & k & o & Ev & F3 & Hh & Cs & Bd & NLp & TK).
    unfold look_at in La. rewrite !andb_true_iff in La. destruct La as [[[Sr Ss] Ft] Dc]. apply same_spec_eq in Ss. rewrite <- Ss in Cs. rewrite <- (same_header _ _ _ Sr) in Hh.
    pose proof (peek_vals _ _ _ _ _ _ _ Pk (first_kinds _ _ Fr) Ft F3 Bd) as Pv. set (s1 := set_look (Some 1) (set_opts (all_ignored (ps_opts sr)) sr)).
    destruct (peek_exec wo ro depth G s L p body s1 vals k sr _ Fr eq_refl (look_peek _ _ _ _ _ _ I) Pk Pv Hh eq_refl eq_refl Cs) as (d2 & st2 & Hx & Ed & Eu & El & K1 & K2 & K3 & K4).
    cbn [s1 set_look set_opts ps_dic ps_up ps_loops] in *. exists st2. split; [exact Hx|]. split; [exact Eu|]. intros x ix Mx Cv.
    pose proof (is_rst _ _ _ _ _ _ _ _ _ _ I) as [S (P & _)].
    assert (Sc : scope_of st2 = scope_of (set_dic (after_head (fs_type p) k d2) sr)) by (unfold scope_of; cbn [set_dic ps_up ps_dic ps_loops]; now rewrite Ed, Eu, El).
    unfold both_int. rewrite Sc, (head_raw _ _ _ _ _ _ _ _ _ S Hk Mx).
    apply (known_raw wo ro G GG D CD s L O (look_vars s p q ++ T) sw (set_dic d2 sr) x ix W).
    - now apply shape_dic.
    - exact (is_al _ _ _ _ _ _ _ _ _ _ I).
    - eapply named_kept; [exact S|eapply part_named; eauto|exact K1| |exact K4]. intros key Hkey. apply K2. intros y ->.
      destruct (existsb (fun f => mentions y (snd f)) (fs_slots p)) eqn:M; [|reflexivity].
      pose proof (peekable_names _ _ _ _ _ _ Pk M) as X. pose proof (Hkey y eq_refl). congruence.
    - cbn [set_dic ps_up]. eapply look_levels; eauto.
    - exact Cv.
  Qed.

  Definition leads (s L : list str) (l : list SpecRound.look) (sw sr sr' : pstate) : Prop :=
    exists q, In q l /\ begun s L (fst q) sw sr sr' /\ match snd q with Some c => truthvalue EW (scope_of sw) c = Ok true | None => True end.
  Definition leads_opt (s L : list str) (Q : option (list SpecRound.look)) (sw sr sr' : pstate) : Prop :=
    match Q with Some l => leads s L l sw sr sr' | None => True end.

  Lemma look_truth s L O T sw sr sr' c k body Q t : wst s L sw -> instep s L O T sw sr -> look_ok G s L O T c k body Q = true ->
    leads_opt s L Q sw sr sr' -> truthvalue EW (scope_of sw) c = Ok t ->
    if_statement ER c (Some k) (exec_block ER body) sr = (Ok t, sr).
  Proof.
    intros W I Lo Ld Et. unfold look_ok in Lo. destruct (first_record body) as [p|] eqn:Fr; [|discriminate]. destruct Q as [l|]; [|discriminate].
    rewrite !andb_true_iff in Lo. destruct Lo as [[[On Pk] Hk] La]. destruct Ld as (q & Iq & Bg & Tq). rewrite forallb_forall in La. specialize (La q Iq).
    destruct (look_scope _ _ _ _ _ _ _ _ _ _ _ W I Fr Pk Hk La Bg) as (st2 & Hx & Eu & Bi).
    pose proof (is_rst _ _ _ _ _ _ _ _ _ _ I) as [S _].
    assert (Ek : eval_ctl ER k sr = (Ok (vint 1), sr)).
    { destruct k as [| |de n| | | | | |]; try discriminate. destruct n as [z| |]; try discriminate. assert (z = 1) as -> by (destruct z as [|[]|]; try discriminate; reflexivity).
      unfold eval_ctl, eval_known. now rewrite eval_expr_eq. }
    cbn [if_statement ER read_env e_write]. fold ER. unfold mbind at 1. rewrite Ek. unfold mbind, lift. cbn [int_of_val vint as_num bind].
    rewrite (so_look _ _ _ _ S). rewrite Hx.
    assert (Uw : unwind (length (ps_up sr)) (ps_up (set_look None st2)) (ps_dic (set_look None st2)) = (ps_up st2, ps_dic st2)).
    { cbn [set_look ps_up ps_dic]. rewrite Eu. destruct (ps_up sr); [reflexivity|]. unfold unwind. now rewrite Nat.leb_refl. }
    rewrite Uw. change {| sc_dic := ps_dic st2; sc_up := ps_up st2; sc_loops := ps_loops (set_look None st2) |} with (scope_of st2).
    unfold look_at in La. rewrite !andb_true_iff in La. destruct La as [_ Dc].
    rewrite <- (decided_truth EW ER (scope_of sw) (scope_of st2) s _ L O (snd q) c eq_refl eq_refl Bi Tq Dc), Et. reflexivity.
  Qed.

  Lemma look_third s L O T T' sw sw' sr sr' c k body Q Ed sE : wst s L sw -> instep s L O T sw sr -> look_ok G s L O T c k body Q = true ->
    leads_opt s L Q sw sr sr' -> instep s L O T' sw' sr' -> kept sw sw' -> kept sr sr' -> grows sr sr' -> drops D Ed -> holds Ed sr' ->
    ProofRound2.wst G Ed s L sE -> aligned sw sE -> truthvalue EW (scope_of sw) c = truthvalue EW (scope_of sE) c.
  Proof.
    intros W I Lo Ld I' Kw Kr Gr DE Ho WE AE. unfold look_ok in Lo. destruct (first_record body) as [p|] eqn:Fr; [|discriminate]. destruct Q as [l|]; [|discriminate].
    rewrite !andb_true_iff in Lo. destruct Lo as [_ La]. destruct Ld as (q & Iq & Bg & Tq). rewrite forallb_forall in La. specialize (La q Iq).
    unfold look_at in La. rewrite !andb_true_iff in La. destruct La as [_ Dc].
    assert (I2 : instep s L O (look_vars s p q ++ T) sw sr').
    { eapply instep_to; [exact I|apply (is_rst _ _ _ _ _ _ _ _ _ _ I')|exact Gr|apply (kp_loops _ _ Kr)|apply (kp_up _ _ Kr)|reflexivity|reflexivity|].
      intros t It. apply in_app_or in It as [It|It].
      - destruct (shared_plain _ _ _ _ _ It) as [x ->]. destruct Bg as (vs & vals & c0 & o & _ & _ & _ & _ & _ & _ & TK). apply TK. eapply shared_vars; exact It.
      - eapply toks_grows; [exact Gr|apply Kr|apply Kr|eapply instep_toks; exact I|exact It]. }
    pose proof (third_instep wo ro G D Ed DE _ _ _ _ _ _ _ I2 AE Ho) as IE.
    eapply decided_truth; [reflexivity|reflexivity| |exact Tq|exact Dc]. intros x ix _ Cv.
    destruct (control_raw wo ro G GG D CD _ _ _ _ _ _ _ _ W I2 Cv) as (z & E1 & E2).
    destruct (control_raw wo ro G GG Ed (drops_conforms wo ro G D CD Ed DE) _ _ _ _ _ _ _ _ WE IE Cv) as (z' & E3 & E4).
    exists z. split; [exact E1|]. congruence.
  Qed.

  (** ** A test and what follows *)

  Definition test_ok (s L : list str) (O : list (list str * list extvar)) (T : list extvar) (Q : option (list SpecRound.look)) (b : branch) : Prop :=
    match b with Branch c la body => match la with None => control_cond G L ((s, T) :: O) c | Some k => look_ok G s L O T c k body Q end = true end.

  Lemma simp_test (Pa Pb : pstate -> pstate -> pstate -> Prop) Q s L O T T' c la body aw ar bw br : test_ok s L O T Q (Branch c la body) ->
    simp Pa s L O T T' aw ar -> simp Pb s L O T T' bw br ->
    (forall sw sr sr', truthvalue EW (scope_of sw) c = Ok true -> Pa sw sr sr' -> leads_opt s L Q sw sr sr') ->
    (forall sw sr sr', Pb sw sr sr' -> leads_opt s L Q sw sr sr') ->
    simp (leads_opt s L Q) s L O T T' (run t <- if_statement EW c la (exec_block EW body); if t then aw else bw)
      (run t <- if_statement ER c la (exec_block ER body); if t then ar else br).
  Proof.
    intros C Sa Sb Ha Hb sw sw' W H. cbn [test_ok] in C. apply mbind_ok in H as (t & sw1 & Ht & H).
    assert (Wr : forall st, if_statement EW c la (exec_block EW body) st = (truthvalue EW (scope_of st) c, st)) by (intros st; destruct la; reflexivity).
    rewrite Wr in Ht. assert (sw1 = sw) as -> by (injection Ht as _ <-; reflexivity). assert (Et : truthvalue EW (scope_of sw) c = Ok t) by exact (f_equal fst Ht).
    assert (X : wst s L sw' /\ kept sw sw' /\ exists new, ps_lines sw' = ps_lines sw ++ new /\
      (full (w_width wo) new -> forall sr, instep s L O T sw sr -> at_lines new (ps_lines sr) (ps_ofs sr) ->
       exists sr', (if t then ar else br) sr = (Ok tt, sr') /\ instep s L O T' sw' sr' /\ kept sr sr' /\ ps_lines sr' = ps_lines sr /\
         ps_ofs sr' = (ps_ofs sr + length new)%nat /\ grows sr sr' /\ third G D s L sw (if t then aw else bw) new sr' /\ leads_opt s L Q sw sr sr')).
    { destruct t; [destruct (Sa _ _ W H) as (W' & K & new & En & R)|destruct (Sb _ _ W H) as (W' & K & new & En & R)];
        (split; [exact W'|]; split; [exact K|]; exists new; split; [exact En|]; intros F sr I A;
         destruct (R F sr I A) as (sr' & Q1 & Q2 & Q3 & Q4 & Q5 & Q6 & Q7 & Q8); exists sr'; do 7 (split; [assumption|]); auto). }
    destruct X as (W' & K & new & En & R). split; [exact W'|]. split; [exact K|]. exists new. split; [exact En|].
    intros F sr I A. destruct (R F sr I A) as (sr' & Hr & Q1 & Q2 & Q3 & Q4 & Q5 & Th & Ld). exists sr'. split; [|do 5 (split; [assumption|]); split; [|exact Ld]].
    - unfold mbind. assert (Rt : if_statement ER c la (exec_block ER body) sr = (Ok t, sr)); [|now rewrite Rt].
      destruct la as [k|]; [exact (look_truth _ _ _ _ _ _ _ _ _ _ _ _ W I C Ld Et)|]. cbn [if_statement]. unfold ER.
      rewrite <- (control_truth wo ro blank depth G GG D CD _ _ _ _ _ _ _ W I C). fold EW. now rewrite Et.
    - intros Ed sE DE Ho WE AE. destruct (Th Ed sE DE Ho WE AE) as (sE' & M1 & QE). exists sE'. split; [|exact QE].
      unfold mbind. rewrite Wr. assert (Tt : truthvalue EW (scope_of sE) c = Ok t); [|now rewrite Tt].
      rewrite <- Et. destruct la as [k|]; [symmetry; exact (look_third _ _ _ _ _ _ _ _ _ _ _ _ _ _ _ W I C Ld Q1 K Q2 Q5 DE Ho WE AE)|].
      pose proof (third_instep wo ro G D Ed DE _ _ _ _ _ _ _ I AE (holds_grows _ _ _ Q5 Ho)) as IE.
      unfold EW. rewrite (control_truth wo ro blank depth G GG Ed (drops_conforms wo ro G D CD Ed DE) _ _ _ _ _ _ _ WE IE C).
      now rewrite <- (control_truth wo ro blank depth G GG D CD _ _ _ _ _ _ _ W I C).
  Qed.
End Look.
