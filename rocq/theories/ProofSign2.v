(** Proof of C55: whole sections. *)
From Coq Require Import Ascii String ZArith Bool Lia List.
From Coq Require Import Floats.SpecFloat.
From Verif Require Import PyBase PyFloat ModelFortran ModelRecords ModelTape ModelNum ModelRecipe ModelInterp.
From Verif Require Import SpecFields SpecLibm SpecTape SpecInterp SpecRound SpecSign ProofPyBase ProofFields ProofTape ProofTapeWrite ProofInterp ProofInterpFrame ProofInterpCtl ProofInterpSec ProofInterpMap ProofInterpWrite ProofRound9 ProofSign.
Import ListNotations.
Open Scope Z_scope.

(** ** Whole sections *)
Lemma get_ctrl_top d c : get_ctrl d [] = Ok c ->
  dget kMAT d = Some (vint (MAT c)) /\ dget kMF d = Some (vint (MF c)) /\ dget kMT d = Some (vint (MT c)).
Proof.
  unfold get_ctrl. change (KStr $"MAT") with kMAT. change (KStr $"MF") with kMF. change (KStr $"MT") with kMT.
  assert (E : ctrl_dic d [] = d) by (cbn [ctrl_dic]; destruct (dget _ d); reflexivity). rewrite E. clear E. cbv zeta.
  destruct (dget kMAT d) as [a|]; [|discriminate]. destruct (dget kMF d) as [b|]; [|discriminate]. destruct (dget kMT d) as [e|]; [|discriminate].
  intros H. dbind H. dbind H. dbind H. injection H as <-. cbn [MAT MF MT].
  assert (Z : forall v z, as_Z v = Ok z -> Some v = Some (vint z)).
  { intros v z Q. destruct v; try discriminate. match goal with |- Some (VNum ?m) = _ => destruct m end; try discriminate. injection Q as <-. reflexivity. }
  auto.
Qed.

Lemma number_extra mf mt d : exists x1 x2, numbered mf mt d = (d ++ x1) ++ x2 /\
  (x1 = [] \/ x1 = [(kMF, vint mf)]) /\ (x2 = [] \/ x2 = [(kMT, vint mt)]).
Proof.
  unfold numbered. assert (E : forall x z q, exists y, put_missing x z q = q ++ y /\ (y = [] \/ y = [(KStr x, vint z)])).
  { intros x z q. unfold put_missing. destruct (dget (KStr x) q) eqn:E; [exists []; rewrite app_nil_r; auto|].
    exists [(KStr x, vint z)]. rewrite dset_new by exact E. auto. }
  destruct (E $"MF" mf d) as (x1 & -> & H1). destruct (E $"MT" mt (d ++ x1)) as (x2 & -> & H2). exists x1, x2. auto.
Qed.
Lemma numbered_clean mf mt d : clean (VDict d) -> clean (VDict (numbered mf mt d)).
Proof.
  intros C. destruct (number_extra mf mt d) as (x1 & x2 & -> & H1 & H2).
  assert (C1 : clean (VDict (d ++ x1))).
  { destruct H1 as [->| ->]; [rewrite app_nil_r; exact C|]. apply clean_app; [exact C| |apply cl_other; discriminate].
    intros [Q|[Q|Q]]; discriminate Q. }
  destruct H2 as [->| ->]; [rewrite app_nil_r; exact C1|]. apply clean_app; [exact C1| |apply cl_other; discriminate].
  intros [Q|[Q|Q]]; discriminate Q.
Qed.
Lemma one_app d k z : one_mat d -> one_mat (d ++ [(k, vint z)]).
Proof.
  intros H j v G. destruct (dget j d) eqn:E; [rewrite (dget_app_some _ _ _ _ E) in G; injection G as <-; eauto|].
  rewrite dget_app_none in G by exact E. cbn [dget] in G. destruct (key_eqb j k); [|discriminate]. injection G as <-. apply nm_other. discriminate.
Qed.
Lemma numbered_one mf mt d : one_mat d -> one_mat (numbered mf mt d).
Proof.
  intros C. destruct (number_extra mf mt d) as (x1 & x2 & -> & H1 & H2).
  assert (C1 : one_mat (d ++ x1)) by (destruct H1 as [->| ->]; [rewrite app_nil_r; exact C|now apply one_app]).
  destruct H2 as [->| ->]; [rewrite app_nil_r; exact C1|now apply one_app].
Qed.
Lemma numbered_mat mf mt d : dget kMAT (numbered mf mt d) = dget kMAT d.
Proof.
  unfold numbered, put_missing. destruct (dget (KStr $"MF") d); [destruct (dget (KStr $"MT") d); [reflexivity|]|].
  - now rewrite dget_dset_other by discriminate.
  - destruct (dget (KStr $"MT") _); rewrite ?dget_dset_other by discriminate; reflexivity.
Qed.

Lemma section_run en b o d s c : e_write en = true -> clean (VDict d) -> one_mat d ->
  run_section en b (reset_state o [] d) = (Ok tt, s) -> get_ctrl (ps_dic s) (ps_up s) = Ok c ->
  (dget kMAT d = Some (vint (MAT c)) /\ dget kMF d = Some (vint (MF c)) /\ dget kMT d = Some (vint (MT c))) /\ inv c d [] (set_dic (init_working d) (reset_state o [] d)) /\
  exists s2, exec_block en b (set_dic (init_working d) (reset_state o [] d)) = (Ok tt, s2) /\ ps_lines s2 = ps_lines s /\ remove_working s2 = (Ok tt, s).
Proof.
  intros W C O R G. inversion C as [d0 A B|d0 A]; subst d0; [|destruct (A _ eq_refl)].
  assert (NA : dget kA d = None) by (apply A; right; left; reflexivity).
  assert (NS : dget kS d = None) by (apply A; right; right; reflexivity).
  unfold run_section in R. apply mbind_ok in R as ([] & s1 & R1 & R). injection R1 as <-.
  apply mbind_ok in R as ([] & s2 & R2 & R). cbn [reset_state ps_dic] in R2.
  assert (KI : wok d []) by (split; try assumption; [contradiction|constructor]).
  assert (DI : ps_dic (set_dic (init_working d) (reset_state o [] d)) = wform d []).
  { cbn [set_dic ps_dic reset_state]. unfold init_working, wform. change (KStr $"__abbrevs") with kA. change (KStr $"__startidcs") with kS.
    rewrite (dset_new kA) by exact NA. rewrite dset_new; [rewrite <- app_assoc; reflexivity|].
    rewrite dget_app_none by exact NS. reflexivity. }
  destruct (proj1 (proj2 (exec_kept en W)) _ _ _ _ R2 _ _ KI DI) as (ab' & K' & D').
  pose proof (remove_wok _ _ _ _ K' D' R) as D4.
  assert (U4 : ps_up s = [] /\ ps_lines s2 = ps_lines s).
  { pose proof (fk_up _ _ _ (proj2 (exec_frame en) _ _ _ _ R2)) as U3. cbn [set_dic ps_up reset_state] in U3.
    unfold remove_working in R. destruct (dget _ (ps_dic s2)) as [v|]; [|discriminate]. destruct v; try discriminate.
    destruct (del_names _ _); [|discriminate]. injection R as <-. split; [exact U3|reflexivity]. }
  destruct U4 as [U4 L4]. rewrite D4, U4 in G. destruct (get_ctrl_top _ _ G) as (G1 & G2 & G3).
  assert (CH : chain c d []) by (now apply ch_top).
  split; [auto|]. split; [split; assumption|]. exists s2. auto.
Qed.

Lemma val_eqZ_int z z' : val_eqZ (vint z) z' = true -> z = z'.
Proof. unfold val_eqZ, vint, num_eqb, num_cmp. cbn [sf_of num_num num_den]. rewrite !Z.mul_1_r. destruct (Z.compare_spec z z'); intros Q; (assumption || discriminate Q). Qed.

Lemma ends_signed c l : ends c l <-> signed (MAT c) (MF c) (MT c) l.
Proof. reflexivity. Qed.

Lemma write_ctrl_numbers en explain b o mf mt d lines c d' : e_write en = true -> clean (VDict d) -> one_mat d ->
  write_recipe en explain b o mf mt d = (Ok (lines, c), d') ->
  MF c = mf /\ MT c = mt /\ dget kMAT d = Some (vint (MAT c)).
Proof.
  intros W C O H. apply write_inv in H as (s & R & _ & G & (v & V1 & V2) & (w & W1 & W2)).
  pose proof (section_run en b o (numbered mf mt d) s c W (numbered_clean _ _ _ C) (numbered_one _ _ _ O) R G) as ((A & B & D) & _).
  rewrite numbered_mat in A.
  pose proof (eq_trans (eq_sym V1) B) as E1. pose proof (eq_trans (eq_sym W1) D) as E2. injection E1 as ->. injection E2 as ->.
  apply val_eqZ_int in V2, W2. auto.
Qed.

(** recipes without SEND *)
Theorem body_signed en explain b o mf mt d lines c d' : e_write en = true -> clean (VDict d) -> one_mat d -> no_send b = true ->
  write_recipe en explain b o mf mt d = (Ok (lines, c), d') -> Forall (signed (MAT c) (MF c) (MT c)) lines.
Proof.
  intros W C O N H. apply write_inv in H as (s & R & <- & G & _ & _).
  destruct (section_run en b o (numbered mf mt d) s c W (numbered_clean _ _ _ C) (numbered_one _ _ _ O) R G) as (_ & J & s2 & R2 & <- & _).
  destruct (proj1 (proj2 (exec_signed c en W)) b N _ _ _ R2 _ _ J) as (ab & new & _ & -> & F). exact F.
Qed.

(** recipes with SEND at the end *)
Theorem section_signed en explain b o mf mt d lines c d' : e_write en = true -> clean (VDict d) -> one_mat d -> no_send b = true ->
  write_recipe en explain (then_send b) o mf mt d = (Ok (lines, c), d') ->
  exists body send, lines = body ++ [send] /\ Forall (signed (MAT c) (MF c) (MT c)) body /\ write_send (e_wo en) (e_blank en) c = Ok [send].
Proof.
  intros W C O N H. apply write_inv in H as (s & R & <- & G & _ & _).
  destruct (section_run en (then_send b) o (numbered mf mt d) s c W (numbered_clean _ _ _ C) (numbered_one _ _ _ O) R G) as (_ & J & s2 & R2 & <- & _).
  rewrite then_send_eq in R2 by reflexivity. apply mbind_ok in R2 as ([] & s1 & R1 & R2).
  destruct (proj1 (proj2 (exec_signed c en W)) b N _ _ _ R1 _ _ J) as (ab & new & J1 & L1 & F). cbn [app] in L1.
  unfold do_send in R2. rewrite W in R2. unfold write_with in R2. destruct (the_ctrl s1) as [c'|] eqn:E; cbn [bind] in R2; [|discriminate].
  assert (c' = c) as ->.
  { apply (chain_ctrl c (ps_dic s1) (ps_up s1)); [|exact E]. rewrite (iv_dic _ _ _ _ J1). apply chain_wform; [exact (iv_wok _ _ _ _ J1)|exact (iv_chain _ _ _ _ J1)]. }
  destruct (write_send (e_wo en) (e_blank en) c) as [ls|] eqn:S; [|discriminate]. injection R2 as <-.
  unfold write_send, write_end in S. destruct (zerostr_fields _ _); cbn [bind] in S; [|discriminate]. injection S as <-.
  exists new. eexists. cbn [ModelInterp.add_lines ps_lines]. rewrite L1. split; [reflexivity|]. split; [exact F|reflexivity].
Qed.
