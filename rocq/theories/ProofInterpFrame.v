(** What a successful execution leaves unchanged; loops; line ranges. *)
From Coq Require Import Ascii String ZArith Bool Lia List.
From Verif Require Import PyBase PyFloat ModelFortran ModelRecords ModelNum ModelRecipe ModelInterp.
From Verif Require Import SpecInterp ProofPyBase ProofInterp.
Import ListNotations.
Open Scope Z_scope.

Lemma ldel_none x l : lget x l = None -> ldel x l = l.
Proof.
  induction l as [|[y v] l IH]; cbn [lget ldel]; [reflexivity|].
  destruct (str_eqb x y); [discriminate|]. intros H. rewrite (IH H). reflexivity.
Qed.
Lemma ldel_head x v l : ldel x ((x, v) :: l) = l.
Proof. cbn [ldel]. rewrite str_eqb_refl. reflexivity. Qed.

Lemma zrange_empty a b : b < a -> zrange a b = [].
Proof. intros H. unfold zrange. replace (Z.to_nat (b + 1 - a)) with 0%nat by lia. reflexivity. Qed.
Lemma zrange_cons a b : a <= b -> zrange a b = a :: zrange (a + 1) b.
Proof.
  intros H. unfold zrange. replace (Z.to_nat (b + 1 - a)) with (S (Z.to_nat (b + 1 - (a + 1)))) by lia.
  cbn [seq map]. f_equal; [lia|]. rewrite <- seq_shift, map_map. apply map_ext. intros k. lia.
Qed.

(** ** Skipping blank lines *)

Lemma skip_from_ok rest : forall p o, skip_blank_from rest p = Ok o ->
  (p <= o < p + length rest)%nat /\
  (forall i l, (p <= i < o)%nat -> nth_error rest (i - p) = Some l -> is_blank l = true) /\
  (exists l, nth_error rest (o - p) = Some l /\ is_blank l = false).
Proof.
  induction rest as [|l r IH]; intros p o H; [discriminate H|]. cbn [skip_blank_from] in H.
  destruct (is_blank l) eqn:B.
  - apply IH in H. destruct H as (L & A & (l' & N & B')). cbn [length]. split; [lia|]. split.
    + intros i l0 Hi Hn. destruct (Nat.eq_dec i p) as [->|D].
      * rewrite Nat.sub_diag in Hn. injection Hn as <-. exact B.
      * apply (A i l0); [lia|]. replace (i - p)%nat with (S (i - S p)) in Hn by lia. exact Hn.
    + exists l'. split; [|exact B']. replace (o - p)%nat with (S (o - S p)) by lia. exact N.
  - injection H as <-. cbn [length]. split; [lia|]. split; [intros; lia|].
    exists l. rewrite Nat.sub_diag. split; [reflexivity | exact B].
Qed.

Lemma nth_error_skipn {A} n (l : list A) i : nth_error (skipn n l) i = nth_error l (n + i).
Proof. revert l. induction n as [|n IH]; intros [|a l]; cbn; auto. destruct i; reflexivity. Qed.

Lemma skip_ok lines p o : skip_blank_lines lines p = Ok o ->
  (p <= o < length lines)%nat /\
  (forall i l, (p <= i < o)%nat -> nth_error lines i = Some l -> is_blank l = true) /\
  (exists l, nth_error lines o = Some l /\ is_blank l = false).
Proof.
  unfold skip_blank_lines. intros H. apply skip_from_ok in H.
  destruct H as (L & A & (l & N & B)). rewrite skipn_length in L. split; [lia|]. split.
  - intros i l0 Hi Hn. apply (A i l0 Hi). rewrite nth_error_skipn.
    replace (p + (i - p))%nat with i by lia. exact Hn.
  - exists l. split; [|exact B]. rewrite nth_error_skipn in N. replace (p + (o - p))%nat with o in N by lia. exact N.
Qed.

(** the loop rule for relations that do not mention the loop variables *)
Section LoopRule.
  Variable en : env.
  Variable Q : pstate -> pstate -> Prop.      (* relation on the rest of the state *)
  Hypothesis PQ : preorder Q.
  Hypothesis Q_loops : forall l s, Q s (set_loops l s).

  Definition both (s s' : pstate) : Prop := ps_loops s' = ps_loops s /\ Q s s'.
  Lemma both_preorder : preorder both.
  Proof.
    split.
    - intros s. split; [reflexivity | apply (po_refl _ PQ)].
    - intros a b c [e1 q1] [e2 q2]. split; [congruence | exact (po_trans _ PQ _ _ _ q1 q2)].
  Qed.

  Lemma iterate_both v body : keeps both body ->
    forall is_ s a s', iterate v is_ body s = (Ok a, s') ->
    Q s s' /\ (is_ = [] /\ s' = s \/ is_ <> [] /\ exists j, ps_loops s' = (v, j) :: ldel v (ps_loops s)).
  Proof.
    intros Hb. induction is_ as [|i r IH]; intros s a s' H; cbn [iterate] in H.
    - injection H as _ <-. split; [apply (po_refl _ PQ) | left; auto].
    - apply mbind_ok in H. destruct H as ([] & s1 & H1 & H). injection H1 as <-.
      apply mbind_ok in H. destruct H as ([] & s2 & H2 & H).
      apply Hb in H2. destruct H2 as [L2 Q2]. cbn [set_loops ps_loops] in L2.
      apply IH in H. destruct H as [Q3 H]. split.
      + apply (po_trans _ PQ) with (set_loops ((v, i) :: ldel v (ps_loops s)) s); [apply Q_loops|].
        exact (po_trans _ PQ _ _ _ Q2 Q3).
      + right. split; [discriminate|]. destruct H as [[_ ->] | (_ & j & H)].
        * exists i. exact L2.
        * exists j. rewrite H, L2, ldel_head. reflexivity.
  Qed.

  Lemma iterate_l_both v (body : LM) : (forall ls, keeps both (body ls)) ->
    forall is_ ls s a s', iterate_l v is_ body ls s = (Ok a, s') ->
    Q s s' /\ (is_ = [] /\ s' = s \/ is_ <> [] /\ exists j, ps_loops s' = (v, j) :: ldel v (ps_loops s)).
  Proof.
    intros Hb. induction is_ as [|i r IH]; intros ls s a s' H; cbn [iterate_l] in H.
    - injection H as _ <-. split; [apply (po_refl _ PQ) | left; auto].
    - apply mbind_ok in H. destruct H as ([] & s1 & H1 & H). injection H1 as <-.
      apply mbind_ok in H. destruct H as (ls' & s2 & H2 & H).
      apply Hb in H2. destruct H2 as [L2 Q2]. cbn [set_loops ps_loops] in L2.
      apply IH in H. destruct H as [Q3 H]. split.
      + apply (po_trans _ PQ) with (set_loops ((v, i) :: ldel v (ps_loops s)) s); [apply Q_loops|].
        exact (po_trans _ PQ _ _ _ Q2 Q3).
      + right. split; [discriminate|]. destruct H as [[_ ->] | (_ & j & H)].
        * exists i. exact L2.
        * exists j. rewrite H, L2, ldel_head. reflexivity.
  Qed.

  Lemma zrange_nil_iff a b : zrange a b = [] <-> (a <=? b) = false.
  Proof.
    destruct (a <=? b) eqn:E.
    - rewrite zrange_cons by lia. split; discriminate.
    - rewrite zrange_empty by lia. tauto.
  Qed.

  Lemma for_both v a b body : keeps both body -> keeps both (cycle_for_loop en v a b body).
  Proof.
    intros Hb s x s' H. unfold cycle_for_loop in H.
    apply mbind_ok in H. destruct H as (va & s1 & H1 & H). injection H1 as _ <-.
    apply mbind_ok in H. destruct H as (vb & s1 & H1 & H). injection H1 as _ <-.
    apply mbind_ok in H. destruct H as (za & s1 & H1 & H). injection H1 as _ <-.
    apply mbind_ok in H. destruct H as (zb & s1 & H1 & H). injection H1 as _ <-.
    destruct (lget v (ps_loops s)) eqn:L; [discriminate H|].
    apply mbind_ok in H. destruct H as ([] & s1 & H1 & H).
    apply (iterate_both v body Hb) in H1. destruct H1 as [Q1 H1].
    destruct H1 as [[N ->] | (N & j & Lj)].
    - apply zrange_nil_iff in N. rewrite N in H. injection H as _ <-. apply (po_refl _ both_preorder).
    - destruct (za <=? zb) eqn:C; [|destruct N; apply zrange_nil_iff; exact C].
      injection H as _ <-. split.
      + cbn [set_loops ps_loops]. rewrite Lj, ldel_head. apply ldel_none. exact L.
      + apply (po_trans _ PQ) with s1; [exact Q1 | apply Q_loops].
  Qed.

  Lemma lfor_both v a b (body : LM) : (forall ls, keeps both (body ls)) ->
    forall ls, keeps both (cycle_list_loop en v a b body ls).
  Proof.
    intros Hb ls s x s' H. unfold cycle_list_loop in H.
    apply mbind_ok in H. destruct H as (va & s1 & H1 & H). injection H1 as _ <-.
    apply mbind_ok in H. destruct H as (vb & s1 & H1 & H). injection H1 as _ <-.
    apply mbind_ok in H. destruct H as (za & s1 & H1 & H). injection H1 as _ <-.
    apply mbind_ok in H. destruct H as (zb & s1 & H1 & H). injection H1 as _ <-.
    destruct (lget v (ps_loops s)) eqn:L; [discriminate H|].
    apply mbind_ok in H. destruct H as (r & s1 & H1 & H).
    apply mbind_ok in H. destruct H as ([] & s2 & H2 & H). injection H as _ <-.
    apply (iterate_l_both v body Hb) in H1. destruct H1 as [Q1 H1].
    destruct H1 as [[N ->] | (N & j & Lj)].
    - apply zrange_nil_iff in N. rewrite N in H2. injection H2 as <-. apply (po_refl _ both_preorder).
    - destruct (za <=? zb) eqn:C; [|destruct N; apply zrange_nil_iff; exact C].
      injection H2 as <-. split.
      + cbn [set_loops ps_loops]. rewrite Lj, ldel_head. apply ldel_none. exact L.
      + apply (po_trans _ PQ) with s1; [exact Q1 | apply Q_loops].
  Qed.

End LoopRule.

(** everything but the dictionary, with a relation [Q] on lines, position and log *)
Section Outside.
  Variable en : env.
  Variable Q : pstate -> pstate -> Prop.
  Variable sends : bool.
  Hypothesis PQ : preorder Q.
  Hypothesis Q_same : forall s s', ps_lines s' = ps_lines s -> ps_ofs s' = ps_ofs s -> ps_log s' = ps_log s -> Q s s'.
  Hypothesis Q_add : forall ls s, e_write en = true -> Q s (add_lines ls s).
  Hypothesis Q_read : forall s o p, e_write en = false ->
    skip_blank_lines (ps_lines s) (ps_ofs s) = Ok o -> (o < p <= length (ps_lines s))%nat -> Q s (advance o p s).
  Hypothesis Q_send : sends = true -> keeps Q (do_send en).

  Definition same_rest (s s' : pstate) : Prop :=
    ps_up s' = ps_up s /\ ps_opts s' = ps_opts s /\ (ps_look s = None -> ps_look s' = None) /\ Q s s'.
  Definition outside : pstate -> pstate -> Prop := both same_rest.

  Lemma rest_preorder : preorder same_rest.
  Proof.
    split.
    - intros s. repeat split; auto.
    - intros a b c (u1 & o1 & l1 & q1) (u2 & o2 & l2 & q2). repeat split; try congruence; auto.
      exact (po_trans _ PQ _ _ _ q1 q2).
  Qed.

  Lemma outside_send : sends = true -> keeps outside (do_send en).
  Proof.
    intros S s a s' H. pose proof (Q_send S _ _ _ H) as HQ. unfold do_send in H.
    assert (E : ps_loops s' = ps_loops s /\ ps_up s' = ps_up s /\ ps_opts s' = ps_opts s /\ ps_look s' = ps_look s).
    { destruct (e_write en).
      - unfold write_with in H. destruct (bind _ _); [|discriminate H]. injection H as _ <-. auto.
      - destruct (skip_blank_lines _ _) as [o|]; [|discriminate H].
        destruct (read_send _ _ _) as [[[r c] o']|]; [|discriminate H]. injection H as _ <-. auto. }
    destruct E as (E1 & E2 & E3 & E4). split; [exact E1|]. split; [exact E2|]. split; [exact E3|]. split; [|exact HQ].
    intros N. rewrite E4. exact N.
  Qed.

  Lemma outside_sec {A} u (m : M A) : keeps outside m ->
    keeps outside (run _ <- open_section en u; run a <- m; run _ <- close_section; ret a).
  Proof.
    intros Hm s a s' H. apply mbind_ok in H. destruct H as ([] & s1 & H1 & H).
    apply mbind_ok in H. destruct H as (b & s2 & H2 & H).
    apply mbind_ok in H. destruct H as ([] & s3 & H3 & H). injection H as _ <-.
    unfold open_section in H1. destruct u as [x ix].
    destruct (bind _ _) as [[[idcs inner] d]|e]; [|discriminate H1]. injection H1 as <-.
    apply Hm in H2. destruct H2 as (L2 & U2 & O2 & K2 & Q2). cbn [set_up ps_loops ps_up ps_opts ps_look] in *.
    unfold close_section in H3. rewrite U2 in H3. injection H3 as <-.
    split; [exact L2|]. cbn [set_up ps_loops ps_up ps_opts ps_look] in *. split; [reflexivity|]. split; [exact O2|]. split; [exact K2|].
    eapply (po_trans _ PQ); [|eapply (po_trans _ PQ); [exact Q2|]]; apply Q_same; reflexivity.
  Qed.

  Theorem outside_kept :
    (forall i, (sends = false -> no_send i = true) -> keeps outside (exec en i)) /\
    (forall b, (sends = false -> no_send_block b = true) -> keeps outside (exec_block en b)).
  Proof.
    assert (G : forall s s', ps_loops s' = ps_loops s -> ps_up s' = ps_up s -> ps_opts s' = ps_opts s ->
      (ps_look s = None -> ps_look s' = None) -> Q s s' -> outside s s') by (intros; repeat split; auto).
    destruct (exec_keeps en outside (both_preorder _ rest_preorder)) with (sends := sends)
      as (H1 & H2 & _); [.. | split; [exact H1 | exact H2]].
    - intros d s. apply G; try reflexivity; auto.
    - intros n k s E. apply G; try reflexivity; auto. intros N. congruence.
    - intros A rd s o a o' W Hrd E1 E2. apply G; try reflexivity; auto.
      apply Q_read; [exact W | exact E1 |]. exact (Hrd _ _ _ _ E2).
    - exact outside_send.
    - intros ls s W. apply G; try reflexivity; auto.
    - intros A u m Hm. apply outside_sec. exact Hm.
    - intros v a b body Hb. apply for_both; [exact rest_preorder | | exact Hb].
      intros l s. repeat split; auto.
    - intros v a b body Hb. apply lfor_both; [exact rest_preorder | | exact Hb].
      intros l s. repeat split; auto.
  Qed.
End Outside.

(** ** Frame *)

Record frame_kept (en : env) (s s' : pstate) : Prop := {
  fk_loops : ps_loops s' = ps_loops s;
  fk_up : ps_up s' = ps_up s;
  fk_opts : ps_opts s' = ps_opts s;
  fk_look : ps_look s = None -> ps_look s' = None;
  fk_read : e_write en = false -> ps_lines s' = ps_lines s;
  fk_write : e_write en = true ->
    (exists ls, ps_lines s' = ps_lines s ++ ls) /\ ps_ofs s' = ps_ofs s /\ ps_log s' = ps_log s
}.

Lemma frame_preorder en : preorder (frame_kept en).
Proof.
  split.
  - intros s. split; try reflexivity; auto.
    intros _. split; [exists []; symmetry; apply app_nil_r | auto].
  - intros a b c [l1 u1 o1 k1 r1 w1] [l2 u2 o2 k2 r2 w2]. split; try congruence; auto.
    + intros W. rewrite (r2 W). exact (r1 W).
    + intros W. destruct (w1 W) as ((x & E1) & E2 & E3). destruct (w2 W) as ((y & F1) & F2 & F3).
      split; [|split; congruence]. exists (x ++ y). rewrite F1, E1, app_assoc. reflexivity.
Qed.


Definition lines_kept (en : env) (s s' : pstate) : Prop :=
  (e_write en = false -> ps_lines s' = ps_lines s) /\
  (e_write en = true -> (exists ls, ps_lines s' = ps_lines s ++ ls) /\ ps_ofs s' = ps_ofs s /\ ps_log s' = ps_log s).

Lemma lines_preorder en : preorder (lines_kept en).
Proof.
  split.
  - intros s. split; [auto|]. intros _. split; [exists []; symmetry; apply app_nil_r | auto].
  - intros a b c [r1 w1] [r2 w2]. split.
    + intros W. rewrite (r2 W). exact (r1 W).
    + intros W. destruct (w1 W) as ((x & E1) & E2 & E3). destruct (w2 W) as ((y & F1) & F2 & F3).
      split; [|split; congruence]. exists (x ++ y). rewrite F1, E1, app_assoc. reflexivity.
Qed.

Theorem exec_frame en :
  (forall i, keeps (frame_kept en) (exec en i)) /\ (forall b, keeps (frame_kept en) (exec_block en b)).
Proof.
  destruct (outside_kept en (lines_kept en) true (lines_preorder en)) as (H1 & H2).
  - intros s s' E1 E2 E3. split; [auto|]. intros _. split; [exists []; rewrite app_nil_r; exact E1 | auto].
  - intros ls s W. split; [intros F; congruence|]. intros _. split; [exists ls; reflexivity | auto].
  - intros s o p W _ _. split; [auto | intros F; congruence].
  - intros _ s a s' H. unfold do_send in H. case_eq (e_write en); intros W; rewrite W in H.
    + unfold write_with in H. destruct (bind _ _) as [ls|]; [|discriminate H]. injection H as _ <-.
      split; [intros F; congruence|]. intros _. split; [exists ls; reflexivity | auto].
    + destruct (skip_blank_lines _ _) as [o|]; [|discriminate H].
      destruct (read_send _ _ _) as [[[r c] o']|]; [|discriminate H]. injection H as _ <-.
      split; [auto | intros F; congruence].
  - split; [intros i s a s' H; apply H1 in H | intros b s a s' H; apply H2 in H]; try discriminate;
      destruct H as (L & U & O & K & R & W); split; assumption.
Qed.

(** ** Line ranges *)

Lemma tiles_app lines a l b m c : tiles lines a l b -> tiles lines b m c -> tiles lines a (l ++ m) c.
Proof. intros H1 H2. induction H1; [exact H2|]. cbn [app]. constructor; auto. Qed.

Definition tiling (s s' : pstate) : Prop :=
  ps_lines s' = ps_lines s /\
  exists recs, ps_log s' = ps_log s ++ recs /\ tiles (ps_lines s) (ps_ofs s) recs (ps_ofs s').

Lemma tiling_preorder : preorder tiling.
Proof.
  split.
  - intros s. split; [reflexivity|]. exists []. split; [symmetry; apply app_nil_r | constructor].
  - intros a b c (E1 & l & F1 & T1) (E2 & m & F2 & T2). split; [congruence|].
    exists (l ++ m). split; [rewrite F2, F1, app_assoc; reflexivity|].
    rewrite E1 in T2. exact (tiles_app _ _ _ _ _ _ T1 T2).
Qed.

Theorem block_tiles en b s s' : e_write en = false -> no_send_block b = true ->
  exec_block en b s = (Ok tt, s') -> tiling s s'.
Proof.
  intros W N H. destruct (outside_kept en tiling false tiling_preorder) as (_ & H2).
  - intros x y E1 E2 E3. split; [exact E1|]. exists []. rewrite app_nil_r. split; [exact E3|].
    rewrite E2. constructor.
  - intros ls x F. congruence.
  - intros x o p _ E1 E2. split; [reflexivity|]. exists [(o, p)]. split; [reflexivity|].
    apply skip_ok in E1. destruct E1 as (L & B & _). constructor; [lia | exact B | exact E2 | constructor].
  - discriminate.
  - apply H2 in H; [|intros _; exact N]. destruct H as (_ & _ & _ & _ & T). exact T.
Qed.
