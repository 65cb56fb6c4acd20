(** The number of lines of MF1/MT451 (C43). *)
From Coq Require Import Ascii String ZArith Bool Lia List.
From Verif Require Import PyBase PyFloat ModelFortran ModelRecords ModelTape SpecTape.
From Verif Require Import ModelRecipe ModelInterp ModelRecipes ModelRegistry SpecInterp.
From Verif Require Import ProofPyBase ProofInterp ProofInterpFrame ProofInterpCtl ProofInterpMap ProofInterpSec ProofRound9 ProofFile2.
Import ListNotations.
Open Scope Z_scope.

(** [m] writes [k] lines and changes nothing else *)
Definition adds (k : nat) (m : M unit) : Prop :=
  forall s s', ps_look s = None -> m s = (Ok tt, s') -> exists ls, s' = ModelInterp.add_lines ls s /\ length ls = k.

Lemma add_lines_nil s : ModelInterp.add_lines [] s = s.
Proof. destruct s. unfold ModelInterp.add_lines. cbn. now rewrite app_nil_r. Qed.
Lemma add_lines_app a b s : ModelInterp.add_lines b (ModelInterp.add_lines a s) = ModelInterp.add_lines (a ++ b) s.
Proof. unfold ModelInterp.add_lines. cbn. now rewrite app_assoc. Qed.

Section Count.
  Variable en : env.
  Hypothesis EW : e_write en = true.

  Lemma adds_guarded k a m : adds k m -> adds k (guarded a m).
  Proof.
    intros A s s' L H. unfold guarded in H. apply mbind_ok in H as (p & s1 & H1 & H2). unfold should_proceed in H1. rewrite L in H1. injection H1 as <- <-. now apply A.
  Qed.
  Lemma adds_written r : (forall s ls, r s = Ok ls -> length ls = 1%nat) -> adds 1 (write_with r).
  Proof. intros R s s' _ H. unfold write_with in H. destruct (r s) as [ls|] eqn:E; [|discriminate H]. injection H as <-. exists ls. split; [reflexivity|exact (R _ _ E)]. Qed.
  Lemma check_spec_same cs s a s' : check_spec_write cs s = (Ok a, s') -> s' = s.
  Proof. unfold check_spec_write. intros H. now injection H as _ <-. Qed.
  Lemma cont_adds h cs f : adds 1 (exec en (ICont h cs f)).
  Proof.
    cbn [exec]. apply adds_guarded. unfold do_cont. rewrite EW. intros s s' L H. apply mbind_ok in H as (? & s1 & H1 & H). apply check_spec_same in H1 as ->.
    apply mbind_ok in H as (vs & s1 & H1 & H). injection H1 as H1 <-. revert s s' L H1 H. intros s s' L _. apply adds_written; [|exact L].
    intros q ls R. destruct (the_ctrl q); [|discriminate R]. cbn [bind] in R. destruct (cont_of vs) as [r|]; [|discriminate R]. cbn [bind] in R. unfold write_cont in R. 
    repeat (match type of R with context[bind ?m _] => destruct m; cbn [bind] in R; [|discriminate R] end). now injection R as <-.
  Qed.
  Lemma text_adds cs f : adds 1 (exec en (IText cs f)).
  Proof.
    cbn [exec]. apply adds_guarded. unfold do_text. rewrite EW. intros s s' L H. apply mbind_ok in H as (? & s1 & H1 & H). apply check_spec_same in H1 as ->.
    apply mbind_ok in H as (vs & s1 & H1 & H). injection H1 as H1 <-. revert s s' L H1 H. intros s s' L _. apply adds_written; [|exact L].
    intros q ls R. destruct (the_ctrl q); [|discriminate R]. cbn [bind] in R. now injection R as <-.
  Qed.
  Lemma dir_adds cs a b c d : adds 1 (exec en (IDir cs a b c d)).
  Proof.
    cbn [exec]. apply adds_guarded. unfold do_dir. rewrite EW. intros s s' L H. apply mbind_ok in H as (? & s1 & H1 & H). apply check_spec_same in H1 as ->.
    apply mbind_ok in H as (vs & s1 & H1 & H). injection H1 as H1 <-. revert s s' L H1 H. intros s s' L _. apply adds_written; [|exact L].
    intros q ls R. destruct (the_ctrl q); [|discriminate R]. cbn [bind] in R. destruct (mapM as_Z vs) as [zs|]; [|discriminate R]. cbn [bind] in R.
    destruct zs as [|? [|? [|? [|? [|? ?]]]]]; try discriminate R. now injection R as <-.
  Qed.
  Lemma block_cons i r s s' : ps_look s = None -> exec_block en (BCons i r) s = (Ok tt, s') -> exists s1, exec en i s = (Ok tt, s1) /\ exec_block en r s1 = (Ok tt, s').
  Proof.
    intros L H. rewrite exec_cons_eq in H. apply mbind_ok in H as (p & s1 & H1 & H). unfold should_proceed in H1. rewrite L in H1. injection H1 as <- <-.
    apply mbind_ok in H as ([] & s1 & H1 & H). eauto.
  Qed.
  Lemma one_adds k i : adds k (exec en i) -> adds k (exec_block en (BCons i BNil)).
  Proof. intros A s s' L H. apply block_cons in H as (s1 & H1 & H2); [|exact L]. rewrite exec_nil_eq in H2. injection H2 as <-. now apply A. Qed.

  (** *** Loops *)
  Lemma iterate_adds v body : adds 1 body -> forall is_ s s', ps_look s = None -> iterate v is_ body s = (Ok tt, s') ->
    exists ls lp, s' = set_loops lp (ModelInterp.add_lines ls s) /\ length ls = length is_ /\ ldel v lp = ldel v (ps_loops s) /\ (is_ = [] -> lp = ps_loops s).
  Proof.
    intros A. induction is_ as [|i is_ IH]; intros s s' L H; cbn [iterate] in H.
    - injection H as <-. exists [], (ps_loops s). rewrite add_lines_nil. repeat split; auto. now destruct s.
    - apply mbind_ok in H as ([] & s1 & H1 & H). injection H1 as <-. apply mbind_ok in H as ([] & s2 & H2 & H).
      apply A in H2 as (l1 & -> & E1); [|exact L]. apply IH in H as (l2 & lp & -> & E2 & E3 & _); [|exact L].
      exists (l1 ++ l2), lp. split; [unfold set_loops, ModelInterp.add_lines; cbn; now rewrite app_assoc|]. split; [rewrite app_length, E1, E2; reflexivity|]. split; [|discriminate].
      rewrite E3. cbn [ModelInterp.add_lines set_loops ps_loops ldel]. rewrite str_eqb_refl. reflexivity.
  Qed.
  Lemma loop_adds v a b body za zb s s' : ps_look s = None -> ps_loops s = [] -> adds 1 body ->
    (forall x, eval_known (e_depth en) (scope_of s) true true a = Ok x -> x = vint za) ->
    (forall x, eval_known (e_depth en) (scope_of s) true true b = Ok x -> x = vint zb) ->
    guarded false (cycle_for_loop en v a b body) s = (Ok tt, s') -> exists ls, s' = ModelInterp.add_lines ls s /\ length ls = Z.to_nat (zb + 1 - za).
  Proof.
    intros L P A VA VB H. unfold guarded in H. apply mbind_ok in H as (p & s1 & H1 & H). unfold should_proceed in H1. rewrite L in H1. injection H1 as <- <-.
    unfold cycle_for_loop in H. apply mbind_ok in H as (xa & s1 & H1 & H). injection H1 as H1 <-. apply VA in H1 as ->.
    apply mbind_ok in H as (xb & s1 & H1 & H). injection H1 as H1 <-. apply VB in H1 as ->.
    apply mbind_ok in H as (ia & s1 & H1 & H). injection H1 as <- <-. apply mbind_ok in H as (ib & s1 & H1 & H). injection H1 as <- <-.
    rewrite P in H. cbn [lget] in H. apply mbind_ok in H as ([] & s1 & H1 & H). apply (iterate_adds v body A) in H1 as (ls & lp & -> & E & D & N); [|exact L].
    exists ls. split; [|rewrite E; unfold zrange; now rewrite map_length, seq_length].
    rewrite P in D, N. destruct (za <=? zb) eqn:C.
    - injection H as <-. unfold set_loops, ModelInterp.add_lines. cbn. rewrite D, P. reflexivity.
    - injection H as <-. rewrite N; [|unfold zrange; replace (Z.to_nat (zb + 1 - za)) with 0%nat by lia; reflexivity].
      unfold set_loops, ModelInterp.add_lines. cbn. now rewrite P.
  Qed.

  Lemma var_known x z s v : ps_loops s = [] -> ps_up s = [] -> dget (KStr x) (ps_dic s) = Some (vint z) ->
    eval_known (e_depth en) (scope_of s) true true (EVar x []) = Ok v -> v = vint z.
  Proof.
    intros P U D H. unfold eval_known in H. destruct (e_depth en); cbn [eval_expr] in H; unfold get_raw, scope_of in H; cbn [sc_loops sc_dic sc_up] in H; rewrite P, U in H; cbn [lget find_up] in H; rewrite D in H; cbn [bind vint missing] in H; now injection H as <-.
  Qed.
  Lemma num_known z s v : eval_known (e_depth en) (scope_of s) true true (rn z) = Ok v -> v = vint z.
  Proof. intros H. unfold eval_known in H. destruct (e_depth en); cbn [rn eval_expr bind] in H; now injection H as <-. Qed.
  Lemma less_known x z k s v : ps_loops s = [] -> ps_up s = [] -> dget (KStr x) (ps_dic s) = Some (vint z) ->
    eval_known (e_depth en) (scope_of s) true true (ESub (EVar x []) (rn k)) = Ok v -> v = vint (z - k).
  Proof.
    intros P U D H. unfold eval_known in H. destruct (e_depth en); cbn [rn eval_expr] in H; unfold get_raw, scope_of in H; cbn [sc_loops sc_dic sc_up] in H; rewrite P, U in H; cbn [lget find_up] in H; rewrite D in H; cbn in H; now injection H as <-.
  Qed.

  Ltac step H n1 E1 := apply block_cons in H as (? & n1 & H); [|assumption || reflexivity]; 
    first [apply cont_adds in n1 as (? & -> & E1)|apply text_adds in n1 as (? & -> & E1)]; [|assumption].

  Lemma endf6_count s s' nwd nxc : ps_look s = None -> ps_loops s = [] -> ps_up s = [] ->
    dget (KStr $"NWD") (ps_dic s) = Some (vint nwd) -> dget (KStr $"NXC") (ps_dic s) = Some (vint nxc) ->
    exec_block en mf1_mt451 s = (Ok tt, s') -> exists ls, s' = ModelInterp.add_lines ls s /\ Z.of_nat (length ls) = 4 + (5 + Z.max 0 (nwd - 5)) + Z.max 0 nxc.
  Proof.
    intros L P U DW DX H. unfold mf1_mt451 in H. cbn [instrs] in H.
    step H n1 E1. step H n2 E2. step H n3 E3. step H n4 E4. step H n5 E5. step H n6 E6.
    apply block_cons in H as (? & n7 & H); [|assumption]. cbn [exec] in n7.
    apply (loop_adds _ _ _ _ 1 3) in n7 as (? & -> & E7); [| assumption | assumption | apply one_adds, text_adds | intros ?; apply num_known | intros ?; apply num_known].
    apply block_cons in H as (? & n8 & H); [|assumption]. cbn [exec] in n8.
    apply (loop_adds _ _ _ _ 1 (nwd - 5)) in n8 as (? & -> & E8); [| assumption | assumption | apply one_adds, text_adds | intros ?; apply num_known | intros ?; apply less_known; assumption].
    apply block_cons in H as (? & n9 & H); [|assumption]. cbn [exec] in n9.
    apply (loop_adds _ _ _ _ 1 nxc) in n9 as (? & -> & E9); [| assumption | assumption | apply one_adds, dir_adds | intros ?; apply num_known | intros ?; apply var_known; assumption].
    rewrite exec_nil_eq in H. injection H as <-. rewrite !add_lines_app. eexists. split; [reflexivity|]. rewrite !app_length. lia.
  Qed.
  Lemma pendf_count s s' nwd nxc : ps_look s = None -> ps_loops s = [] -> ps_up s = [] ->
    dget (KStr $"NWD") (ps_dic s) = Some (vint nwd) -> dget (KStr $"NXC") (ps_dic s) = Some (vint nxc) ->
    exec_block en pendf_mf1_mt451 s = (Ok tt, s') -> exists ls, s' = ModelInterp.add_lines ls s /\ Z.of_nat (length ls) = 4 + Z.max 0 nwd + Z.max 0 nxc.
  Proof.
    intros L P U DW DX H. unfold pendf_mf1_mt451 in H. cbn [instrs] in H.
    step H n1 E1. step H n2 E2. step H n3 E3. step H n4 E4.
    apply block_cons in H as (? & n8 & H); [|assumption]. cbn [exec] in n8.
    apply (loop_adds _ _ _ _ 1 nwd) in n8 as (? & -> & E8); [| assumption | assumption | apply one_adds, text_adds | intros ?; apply num_known | intros ?; apply var_known; assumption].
    apply block_cons in H as (? & n9 & H); [|assumption]. cbn [exec] in n9.
    apply (loop_adds _ _ _ _ 1 nxc) in n9 as (? & -> & E9); [| assumption | assumption | apply one_adds, dir_adds | intros ?; apply num_known | intros ?; apply var_known; assumption].
    rewrite exec_nil_eq in H. injection H as <-. rewrite !add_lines_app. eexists. split; [reflexivity|]. rewrite !app_length. lia.
  Qed.
End Count.

(** ** The section *)

Lemma with_send_then b : with_send b = then_send b.
Proof. induction b as [|i r IH]; cbn [with_send then_send]; [reflexivity|now rewrite IH]. Qed.
Lemma remove_lines s s' : remove_working s = (Ok tt, s') -> ps_lines s' = ps_lines s.
Proof.
  unfold remove_working. destruct (dget _ (ps_dic s)) as [v|]; [|discriminate]. destruct v; try discriminate. destruct (del_names _ _); [|discriminate]. intros H. now injection H as <-.
Qed.
Lemma numbered_other mf mt d k : k <> KStr $"MF" -> k <> KStr $"MT" -> dget k (SpecRound.numbered mf mt d) = dget k d.
Proof.
  intros N1 N2. unfold SpecRound.numbered, SpecRound.put_missing. destruct (dget (KStr $"MF") d); [|].
  - destruct (dget (KStr $"MT") d); [reflexivity|now rewrite dget_dset_other].
  - destruct (dget (KStr $"MT") _); [|rewrite dget_dset_other by exact N2]; now rewrite dget_dset_other.
Qed.

Section Own.
  Variable en : env.
  Hypothesis EW : e_write en = true.

  Lemma own_count b n explain o mf mt d ls c d' nwd nxc :
    (forall s s', ps_look s = None -> ps_loops s = [] -> ps_up s = [] -> dget (KStr $"NWD") (ps_dic s) = Some (vint nwd) -> dget (KStr $"NXC") (ps_dic s) = Some (vint nxc) ->
      exec_block en b s = (Ok tt, s') -> exists ls, s' = ModelInterp.add_lines ls s /\ Z.of_nat (length ls) = n) ->
    dget (KStr $"NWD") d = Some (vint nwd) -> dget (KStr $"NXC") d = Some (vint nxc) ->
    write_recipe en explain (with_send b) o mf mt d = (Ok (ls, c), d') -> Z.of_nat (length ls) = n + 1.
  Proof.
    intros B DW DX H. rewrite with_send_then in H. apply write_inv in H as (s & R & <- & _). apply run_parts in R as (s2 & R2 & R3). rewrite (remove_lines _ _ R3). clear R3.
    rewrite then_send_eq in R2 by reflexivity. apply mbind_ok in R2 as ([] & s1 & R1 & R2).
    apply B in R1 as (l & -> & L); try reflexivity.
    - unfold do_send in R2. rewrite EW in R2. unfold write_with in R2. destruct (the_ctrl _) as [c'|]; cbn [bind] in R2; [|discriminate R2].
      destruct (write_send _ _ c') as [x|] eqn:S; [|discriminate R2]. injection R2 as <-. unfold write_send, write_end in S. destruct (zerostr_fields _ _); [|discriminate S]. cbn [bind] in S. injection S as <-.
      cbn [ModelInterp.add_lines ps_lines set_dic reset_state app]. rewrite app_length. cbn [length]. lia.
    - cbn [set_dic ps_dic reset_state]. rewrite init_working_other, numbered_other; [exact DW|discriminate|discriminate|]. intros [X|[X|X]]; discriminate X.
    - cbn [set_dic ps_dic reset_state]. rewrite init_working_other, numbered_other; [exact DX|discriminate|discriminate|]. intros [X|[X|X]]; discriminate X.
  Qed.
End Own.
