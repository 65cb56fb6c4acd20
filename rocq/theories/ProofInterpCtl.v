(** Loops, conditions, lookahead, sections and the coverage of lines. *)
From Coq Require Import Ascii String ZArith QArith Bool Lia List.
From Coq Require Import Floats.SpecFloat.
From Verif Require Import PyBase PyFloat ModelFortran ModelRecords ModelTape ModelNum ModelRecipe ModelInterp.
From Verif Require Import SpecFields SpecTape SpecInterp ProofPyBase ProofFields ProofTape ProofInterp ProofInterpFrame.
Import ListNotations.
Open Scope Z_scope.

(** ** Loops (C26) *)

Lemma is_int_of_val bad n z : is_int n z -> int_of_val bad (VNum n) = Ok z.
Proof.
  assert (F : forall f, match f with S754_zero _ => z = 0
    | S754_finite s m e => sf_num f = z * sf_den f | _ => False end ->
    match f with S754_infinity _ => Err OverflowError | S754_nan => Err ValueError
    | _ => if sf_integral f then Ok (Z.quot (sf_num f) (sf_den f)) else Err bad end = Ok z).
  { intros f H. destruct f as [s|s| |s m e]; try contradiction.
    - subst z. reflexivity.
    - assert (0 < sf_den (S754_finite s m e)) by (unfold sf_den; lia).
      assert (Q : Z.quot (sf_num (S754_finite s m e)) (sf_den (S754_finite s m e)) = z).
      { rewrite H. apply Z.quot_mul. lia. }
      unfold sf_integral. rewrite Q, H, Z.eqb_refl. reflexivity. }
  intros H. unfold int_of_val, as_num. cbn [bind]. destruct n as [x|f|f o]; cbn [is_int] in H.
  - subst. reflexivity.
  - apply F in H. destruct f; exact H.
  - apply F in H. destruct f; exact H.
Qed.

Lemma loop_at_set v i s : loop_at v i s (set_loops ((v, i) :: ldel v (ps_loops s)) s).
Proof.
  split; [reflexivity|]. cbn [set_loops ps_loops lget]. rewrite str_eqb_refl. split; [reflexivity|].
  intros x N. assert (E : str_eqb x v = false) by (apply str_eqb_neq; exact N). rewrite E.
  induction (ps_loops s) as [|[y w] l IH]; cbn [ldel lget]; [reflexivity|].
  destruct (str_eqb v y) eqn:E1.
  - apply str_eqb_eq in E1. subst y. rewrite E. reflexivity.
  - cbn [lget]. rewrite IH. reflexivity.
Qed.

Lemma iterate_iterates v body b : forall n a s r s', n = Z.to_nat (b + 1 - a) ->
  iterate v (zrange a b) body s = (r, s') -> iterates v body b a s r s'.
Proof.
  induction n as [|n IH]; intros a s r s' N H.
  - rewrite zrange_empty in H by lia. injection H as <- <-. apply it_done. lia.
  - rewrite zrange_cons in H by lia. cbn [iterate] in H. unfold mbind at 1, modify in H.
    apply mbind_inv in H. destruct H as [([] & s1 & H1 & H) | (e & H & ->)].
    + eapply it_next; [lia | apply loop_at_set | exact H1 |]. apply IH; [lia | exact H].
    + eapply it_fail; [lia | apply loop_at_set | exact H].
Qed.

Lemma proceed_none (m : M unit) b s : ps_look s = None -> guarded b m s = m s.
Proof. intros L. unfold guarded, mbind, should_proceed. rewrite L. reflexivity. Qed.

Theorem loop_exact en v e1 e2 body s a b : ps_look s = None ->
  has_int en s e1 a -> has_int en s e2 b -> lget v (ps_loops s) = None ->
  exists r s1, iterates v (exec_block en body) b a s r s1 /\
    match r with
    | Ok _ => exec en (IFor v e1 e2 body) s = (r, set_loops (ps_loops s) s1)
    | Err _ => exec en (IFor v e1 e2 body) s = (r, s1)
    end.
Proof.
  intros L (n1 & E1 & I1) (n2 & E2 & I2) V.
  rewrite exec_for_eq, proceed_none by exact L.
  destruct (iterate v (zrange a b) (exec_block en body) s) as [r s1] eqn:It.
  exists r, s1. split; [exact (iterate_iterates v _ b _ a s r s1 eq_refl It)|].
  assert (U : cycle_for_loop en v e1 e2 (exec_block en body) s =
    match r with
    | Ok _ => (Ok tt, if a <=? b then set_loops (ldel v (ps_loops s1)) s1 else s1)
    | Err e => (Err e, s1)
    end).
  { unfold cycle_for_loop, eval_ctl, lift, mbind. rewrite E1, E2.
    rewrite (is_int_of_val _ _ _ I1), (is_int_of_val _ _ _ I2), V, It.
    destruct r as [[]|e]; [|reflexivity]. destruct (a <=? b); reflexivity. }
  rewrite U. destruct r as [[]|e]; [|reflexivity]. f_equal.
  assert (FK : keeps (both (fun _ _ => True)) (exec_block en body)).
  { intros x y z H. apply (proj2 (exec_frame en)) in H. split; [apply (fk_loops _ _ _ H) | exact I]. }
  apply (iterate_both (fun _ _ => True)) in It; [|split; auto | auto | exact FK].
  destruct It as (_ & [[Z ->] | (N & j & Lj)]).
  - apply zrange_nil_iff in Z. rewrite Z. destruct s; reflexivity.
  - destruct (a <=? b) eqn:C; [|destruct N; apply zrange_nil_iff; exact C].
    rewrite Lj, ldel_head, (ldel_none _ _ V). reflexivity.
Qed.

Theorem loop_nested en v e1 e2 body s a b i : ps_look s = None ->
  has_int en s e1 a -> has_int en s e2 b -> lget v (ps_loops s) = Some i ->
  exec en (IFor v e1 e2 body) s = (Err LoopVariableError, s).
Proof.
  intros L (n1 & E1 & I1) (n2 & E2 & I2) V. rewrite exec_for_eq, proceed_none by exact L.
  unfold cycle_for_loop, eval_ctl, lift, mbind. rewrite E1, E2.
  rewrite (is_int_of_val _ _ _ I1), (is_int_of_val _ _ _ I2), V. reflexivity.
Qed.

(** ** Conditions (C27) *)

Lemma num_cmp_finite x y : num_finite x = true -> num_finite y = true ->
  num_cmp x y = Some (num_num x * num_den y ?= num_num y * num_den x).
Proof.
  unfold num_cmp. intros Fx Fy.
  destruct x as [x|[]|[] ?]; try discriminate Fx; destruct y as [y|[]|[] ?]; try discriminate Fy; reflexivity.
Qed.
Lemma numQ_compare x y : num_finite x = true -> num_finite y = true ->
  (numQ x ?= numQ y)%Q = (num_num x * num_den y ?= num_num y * num_den x).
Proof.
  assert (D : forall f, Zpos (Z.to_pos (sf_den f)) = sf_den f).
  { intros f. apply Z2Pos.id. destruct f; unfold sf_den; lia. }
  intros _ _. unfold Qcompare, numQ, sfQ, qof.
  destruct x as [x|f|f o]; destruct y as [y|g|g o']; cbn [Qnum Qden inject_Z num_num num_den]; rewrite ?D; reflexivity.
Qed.

Lemma val_eqb_num a b : val_eqb (VNum a) (VNum b) = num_eqb a b.
Proof. reflexivity. Qed.

Lemma val_cmp_spec r x y t : val_cmp r x y = Ok t -> (t = true <-> rel_val r x y).
Proof.
  assert (Fin : forall a b t, val_cmp r (VNum a) (VNum b) = Ok t -> (t = true <-> rel_num r a b)).
  { clear. intros a b t H. unfold rel_num. destruct (num_finite a && num_finite b) eqn:F.
    - apply andb_prop in F. destruct F as [Fa Fb].
      assert (C : num_cmp a b = Some (numQ a ?= numQ b)%Q) by (rewrite numQ_compare, num_cmp_finite; auto).
      assert (C' : num_cmp b a = Some (numQ b ?= numQ a)%Q) by (rewrite numQ_compare, num_cmp_finite; auto).
      destruct r; cbn [val_cmp as_num bind] in H; injection H as <-;
        rewrite ?val_eqb_num; unfold num_eqb, num_ltb, num_leb; rewrite ?C, ?C'.
      + rewrite Qlt_alt. destruct (numQ b ?= numQ a)%Q; split; congruence.
      + rewrite Qlt_alt. destruct (numQ a ?= numQ b)%Q; split; congruence.
      + rewrite Qeq_alt. destruct (numQ a ?= numQ b)%Q; cbn [negb]; split; congruence.
      + rewrite Qeq_alt. destruct (numQ a ?= numQ b)%Q; split; congruence.
      + rewrite Qle_alt. destruct (numQ b ?= numQ a)%Q; split; congruence.
      + rewrite Qle_alt. destruct (numQ a ?= numQ b)%Q; split; congruence.
    - assert (S : num_cmp b a = option_map CompOpp (num_cmp a b)).
      { unfold num_cmp. destruct (sf_of a) as [s|s| |s m e], (sf_of b) as [s'|s'| |s' m' e']; cbn [option_map CompOpp];
          try reflexivity; try (destruct s; reflexivity); try (destruct s'; reflexivity);
          try (destruct s, s'; reflexivity); f_equal; apply Z.compare_antisym. }
      destruct r; cbn [val_cmp as_num bind] in H; injection H as <-;
        rewrite ?val_eqb_num; unfold num_eqb, num_ltb, num_leb; rewrite ?S;
        destruct (num_cmp a b) as [[]|]; cbn [option_map CompOpp negb]; split; congruence. }
  assert (Oth : match x, y with VNum _, VNum _ => False | _, _ => True end ->
    val_cmp r x y = Ok t -> (t = true <-> rel_val r x y)).
  { intros N H. replace (rel_val r x y) with
      (match r with REq => val_eqb x y = true | RNe => val_eqb x y = false | _ => False end)
      by (destruct x; try reflexivity; destruct y; try reflexivity; contradiction).
    destruct r; cbn [val_cmp] in H;
      try (destruct x; try discriminate H; destruct y; try discriminate H; contradiction).
    - injection H as <-. destruct (val_eqb x y); cbn [negb]; split; congruence.
    - injection H as <-. reflexivity. }
  destruct x; destruct y; try (apply Oth; exact I). apply Fin.
Qed.

Lemma truth_holds en sc c : forall t, truthvalue en sc c = Ok t -> (t = true <-> cond_holds en sc c).
Proof.
  induction c as [r a b | a IHa b IHb | a IHa b IHb]; intros t H; cbn [truthvalue cond_holds] in *.
  - unfold eval_relation in H. unfold value.
    destruct (eval_known (e_depth en) sc true true a) as [x|e] eqn:E1; cbn [bind] in H.
    + destruct (eval_known (e_depth en) sc true true b) as [y|e] eqn:E2; cbn [bind] in H.
      * apply val_cmp_spec in H. rewrite H. split.
        -- intros R. exists x, y. auto.
        -- intros (x' & y' & X & Y & R). congruence.
      * destruct e; try discriminate H. injection H as <-.
        split; [discriminate|]. intros (x' & y' & X & Y & R). congruence.
    + destruct e; try discriminate H. injection H as <-.
      split; [discriminate|]. intros (x' & y' & X & Y & R). congruence.
  - destruct (truthvalue en sc a) as [x|e]; [|discriminate H]. cbn [bind] in H.
    specialize (IHa _ eq_refl). destruct x.
    + apply IHb in H. tauto.
    + injection H as <-. split; [discriminate|]. intros [A _]. tauto.
  - destruct (truthvalue en sc a) as [x|e]; [|discriminate H]. cbn [bind] in H.
    specialize (IHa _ eq_refl). destruct x.
    + injection H as <-. tauto.
    + apply IHb in H. split; [tauto|]. intros [A|B]; [|tauto]. apply IHa in A. discriminate.
Qed.

Lemma val_cmp_raises r x y e : val_cmp r x y = Err e ->
  e = TypeError /\ r <> REq /\ r <> RNe /\ forall m n, x = VNum m -> y = VNum n -> False.
Proof.
  assert (G : forall (f : num -> num -> bool), (do a <- as_num x; do b <- as_num y; Ok (f a b)) = Err e ->
    e = TypeError /\ forall m n, x = VNum m -> y = VNum n -> False).
  { intros f H. destruct x; cbn [as_num bind] in H; try (injection H as <-; split; [reflexivity | discriminate]).
    destruct y; cbn [as_num bind] in H; try (injection H as <-; split; [reflexivity | discriminate]). discriminate H. }
  intros H. destruct r; cbn [val_cmp] in H; try discriminate H.
  - destruct (G (fun a b => num_ltb b a) H). repeat split; try assumption; discriminate.
  - destruct (G num_ltb H). repeat split; try assumption; discriminate.
  - destruct (G (fun a b => num_leb b a) H). repeat split; try assumption; discriminate.
  - destruct (G num_leb H). repeat split; try assumption; discriminate.
Qed.

Lemma truth_raises en sc c : forall e, truthvalue en sc c = Err e -> cond_raises en sc c e.
Proof.
  induction c as [r a b | a IHa b IHb | a IHa b IHb]; intros e H; cbn [truthvalue] in *.
  - unfold eval_relation in H.
    destruct (eval_known (e_depth en) sc true true a) as [x|e1] eqn:E1; cbn [bind] in H.
    + destruct (eval_known (e_depth en) sc true true b) as [y|e2] eqn:E2; cbn [bind] in H.
      * apply val_cmp_raises in H. destruct H as (-> & R1 & R2 & N). exact (cr_type _ _ r a b x y E1 E2 R1 R2 N).
      * apply (cr_right _ _ _ _ _ x _ E1). destruct e2; try discriminate H; injection H as <-; (split; [exact E2 | discriminate]).
    + apply cr_left. destruct e1; try discriminate H; injection H as <-; (split; [exact E1 | discriminate]).
  - destruct (truthvalue en sc a) as [x|e1] eqn:Ta; cbn [bind] in H.
    + destruct x; [|discriminate H]. apply cr_and2; [|apply IHb, H]. apply (truth_holds _ _ _ _ Ta). reflexivity.
    + injection H as <-. apply cr_and1, IHa. reflexivity.
  - destruct (truthvalue en sc a) as [x|e1] eqn:Ta; cbn [bind] in H.
    + destruct x; [discriminate H|]. apply cr_or2; [|apply IHb, H].
      intros A. apply (truth_holds _ _ _ _ Ta) in A. discriminate A.
    + injection H as <-. apply cr_or1, IHa. reflexivity.
Qed.

Lemma branches_select en els s : forall r l, plain_branches r = Some l ->
  forall res s', exec_branches en r (exec_block en els) s = (res, s') ->
  (exists b, selects en (scope_of s) l els b /\ exec_block en b s = (res, s')) \/
  (exists e, select_raises en (scope_of s) l e /\ res = Err e /\ s' = s).
Proof.
  induction r as [|[c la b] r IH]; intros l Hl res s' H; cbn [plain_branches] in Hl.
  - injection Hl as <-. left. exists els. split; [constructor | exact H].
  - destruct la; [discriminate Hl|]. destruct (plain_branches r) as [l'|] eqn:E; [|discriminate Hl].
    injection Hl as <-. rewrite exec_rcons_eq, test_branch_eq in H. unfold if_statement in H.
    unfold mbind in H. destruct (truthvalue en (scope_of s) c) as [t|e] eqn:T.
    + pose proof (truth_holds _ _ _ _ T) as Ht. destruct t.
      * left. exists b. split; [apply sel_here; tauto | exact H].
      * assert (Nh : ~ cond_holds en (scope_of s) c) by (intros A; apply Ht in A; discriminate A).
        destruct (IH _ eq_refl _ _ H) as [(b' & S & X) | (e & R & X)].
        -- left. exists b'. split; [apply sel_later; [exact Nh | exact S] | exact X].
        -- right. exists e. split; [apply sr_later; assumption | exact X].
    + injection H as <- <-. right. exists e. split; [apply sr_here, truth_raises, T | auto].
Qed.

Theorem clause_select en c b more els s l : ps_look s = None -> plain_branches more = Some l ->
  forall res s', exec en (IIf (Branch c None b) more els) s = (res, s') ->
  (exists b', selects en (scope_of s) ((c, b) :: l) els b' /\ exec_block en b' s = (res, s')) \/
  (exists e, select_raises en (scope_of s) ((c, b) :: l) e /\ res = Err e /\ s' = s).
Proof.
  intros L Hl res s' H. rewrite exec_if_eq, proceed_none in H by exact L.
  apply (branches_select en els s (RCons (Branch c None b) more)); [|exact H].
  cbn [plain_branches]. rewrite Hl. reflexivity.
Qed.

Theorem lookahead_no_trace en c la body s t s' :
  test_branch en (Branch c la body) s = (Ok t, s') -> s' = s.
Proof. apply test_branch_state. Qed.

(** ** Lines (C30) *)

Lemma then_send_eq en b : forall s, ps_look s = None ->
  exec_block en (then_send b) s = (run _ <- exec_block en b; do_send en) s.
Proof.
  induction b as [|i r IH]; intros s L; cbn [then_send].
  - rewrite exec_cons_eq, exec_nil_eq.
    change (exec en ISend) with (guarded true (do_send en)).
    unfold mbind at 1, should_proceed. rewrite L.
    unfold mbind. rewrite (proceed_none (do_send en) true s L). unfold ret.
    destruct (do_send en s) as [[[]|e] s1]; reflexivity.
  - rewrite !exec_cons_eq. unfold mbind at 1 3 4. unfold should_proceed. rewrite L.
    unfold mbind at 1 2. destruct (exec en i s) as [[[]|e] s1] eqn:E; [|reflexivity].
    apply IH. apply (proj1 (exec_frame en)) in E. exact (fk_look _ _ _ E L).
Qed.

Lemma tiles_count lines a recs b : tiles lines a recs b -> forall i l, nth_error lines i = Some l ->
  (times_read recs i <= 1)%nat /\ ((i < a)%nat -> times_read recs i = 0%nat) /\
  ((a <= i < b)%nat -> is_blank l = false -> times_read recs i = 1%nat).
Proof.
  intros H. induction H as [a | a x y recs b Lax Bl Lxy T IH]; intros i l N.
  - unfold times_read. cbn. repeat split; lia.
  - specialize (IH i l N). destruct IH as (H1 & H2 & H3). unfold times_read in *. cbn [filter fst snd].
    destruct ((x <=? i)%nat && (i <? y)%nat) eqn:E.
    + apply andb_prop in E. destruct E as [E1 E2]. apply Nat.leb_le in E1. apply Nat.ltb_lt in E2.
      cbn [length]. rewrite (H2 E2). repeat split; lia.
    + split; [exact H1|]. split.
      * intros Q. apply H2. lia.
      * intros Q B. apply H3; [|exact B]. apply andb_false_iff in E.
        rewrite Nat.leb_gt, Nat.ltb_ge in E. destruct E as [E|E]; [|lia].
        rewrite (Bl i l) in B; [discriminate | lia | exact N].
Qed.

Lemma tiles_end lines a recs b : tiles lines a recs b -> (a <= b)%nat.
Proof. induction 1; lia. Qed.

Theorem section_covered en b o body last s' :
  e_write en = false -> no_send_block b = true ->
  (forall l mat mf mt, In l body -> carries (r_width (e_ro en)) l mat mf mt -> mt <> 0) ->
  run_section en (then_send b) (reset_state o (body ++ [last]) []) = (Ok tt, s') ->
  forall i l, nth_error (body ++ [last]) i = Some l ->
    (times_read (ps_log s') i <= 1)%nat /\ (~ blank l -> times_read (ps_log s') i = 1%nat).
Proof.
  intros W N C H. unfold run_section in H.
  apply mbind_ok in H. destruct H as ([] & s1 & H1 & H). injection H1 as <-.
  apply mbind_ok in H. destruct H as ([] & s2 & H2 & H).
  assert (EL : ps_log s' = ps_log s2).
  { unfold remove_working in H. destruct (dget _ _) as [v|]; [|discriminate H]. destruct v; try discriminate H.
    destruct (del_names _ _); [|discriminate H]. injection H as <-. reflexivity. }
  rewrite EL. clear H EL s'. rewrite then_send_eq in H2 by reflexivity.
  apply mbind_ok in H2. destruct H2 as ([] & s3 & H2 & H3).
  apply (block_tiles en b _ _ W N) in H2. destruct H2 as (EL & recs & ER & T).
  cbn [set_dic reset_state ps_lines ps_log ps_ofs app] in EL, ER, T.
  unfold do_send in H3. rewrite W in H3. rewrite EL in H3.
  destruct (skip_blank_lines _ _) as [k|] eqn:K; [|discriminate H3].
  destruct (read_send _ _ _) as [[[r c] o']|] eqn:RS; [|discriminate H3]. injection H3 as <-.
  cbn [advance ps_log]. rewrite ER.
  apply skip_ok in K. destruct K as (LK & BK & (lk & NK & _)).
  assert (KL : k = length body).
  { rewrite app_length in LK. cbn [length] in LK. destruct (Nat.eq_dec k (length body)) as [|D]; [assumption|].
    exfalso. unfold read_send in RS. binds RS. destruct x as [[r0 c0] o0].
    destruct (_ || negb (MT c0 =? 0)) eqn:Z; [discriminate RS|].
    rewrite !orb_false_iff in Z. destruct Z as [_ Z]. apply negb_false_iff, Z.eqb_eq in Z.
    unfold read_cont in E. binds E. unfold get_line in E0. rewrite NK in E0.
    injection E0 as <-. injection E as _ <- _.
    match goal with X : read_ctrl _ _ = Ok ?c1 |- _ => rename X into RC; rename c1 into c0 end.
    destruct c0 as [mat mf mt]. apply (carries_iff (e_ro en) lk mat mf mt) in RC.
    refine (C lk mat mf mt _ RC Z). apply nth_error_In with k.
    rewrite nth_error_app1 in NK by lia. exact NK. }
  assert (O' : o' = S k).
  { unfold read_send in RS. binds RS. destruct x as [[r0 c0] o0]. destruct (_ || negb _); [discriminate RS|].
    injection RS as _ _ <-. apply read_cont_adv in E. lia. }
  assert (T' : tiles (body ++ [last]) 0 (recs ++ [(k, o')]) o').
  { apply tiles_app with (ps_ofs s3); [exact T|]. constructor; [lia | exact BK | | constructor].
    subst o'. lia. }
  intros i l Ni. destruct (tiles_count _ _ _ _ T' i l Ni) as (H1 & _ & H3).
  split; [exact H1|]. intros NB. apply H3.
  - assert (i < length (body ++ [last]))%nat by (apply nth_error_Some; congruence).
    rewrite app_length in H. cbn [length] in H. lia.
  - destruct (is_blank l) eqn:B; [|reflexivity]. exfalso. apply NB. apply is_blank_iff in B.
    intros x Hx. unfold all_ws in B. rewrite Forall_forall in B. exact (B x Hx).
Qed.
