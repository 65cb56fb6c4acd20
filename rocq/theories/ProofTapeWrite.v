(** Proofs about written tapes. *)
From Coq Require Import Ascii String ZArith Bool Lia List Sorted Permutation.
From Coq Require Import Floats.SpecFloat.
From Verif Require Import PyBase PyFloat ModelFortran ModelRecords ModelTape SpecFields SpecLibm SpecTape.
From Verif Require Import ProofPyBase ProofFields ProofFloatText ProofRecords ProofTape.
Import ListNotations.
Open Scope Z_scope.

(** ** Zero fields *)
Definition zero_text (wo : wopts) : str :=
  match float2fortstr wo (NInt 0) with Ok s => s | Err _ => [] end.

Lemma zero_text_ok wo : field_width wo ->
  float2fortstr wo (NInt 0) = Ok (zero_text wo) /\ length (zero_text wo) = w_width wo /\
  forall ro, r_width ro = w_width wo -> read_fort_float ro (zero_text wo) =
    Ok (if r_preserve ro then NEndf (S754_zero false) (zero_text wo) else NFlt (S754_zero false)).
Proof.
  unfold field_width. destruct wo as [a b c d e w f lm]. cbn [w_width]. intros W.
  assert (H : w = 9%nat \/ w = 10%nat \/ w = 11%nat \/ w = 12%nat \/ w = 13%nat \/ w = 14%nat \/ w = 15%nat) by lia.
  destruct H as [->|[->|[->|[->|[->|[->| ->]]]]]]; destruct a, b, c, d;
    (split; [vm_compute; reflexivity|]; split; [vm_compute; reflexivity|]);
    intros [sp rb rs rt rw rp]; cbn [r_width]; intros ->; destruct sp, rp; vm_compute; reflexivity.
Qed.

Lemma ctrl_int_col s w v : (1 <= w)%nat -> (length s <= w)%nat -> ctrl_int s = Ok v -> fits w v.
Proof.
  intros W L H. destruct s as [|c s].
  - cbn in H. inversion H; subst. apply in_field_fits; auto. unfold in_field.
    assert (0 < 10 ^ (Z.of_nat w - 1)) by (apply Z.pow_pos_nonneg; lia).
    assert (0 < 10 ^ (Z.of_nat w)) by (apply Z.pow_pos_nonneg; lia). lia.
  - eapply fits_mono; [exact L|]. apply ctrl_int_fits; [cbn; lia|exact H].
Qed.

Lemma read_ctrl_fits ro l c : read_ctrl ro l = Ok c -> ctrl_fits c.
Proof.
  unfold read_ctrl. intros H.
  destruct (ctrl_int (slice (6 * r_width ro) (6 * r_width ro + 4) l)) as [a|] eqn:A; [|discriminate].
  destruct (ctrl_int (slice (6 * r_width ro + 4) (6 * r_width ro + 6) l)) as [b|] eqn:B; [|discriminate].
  destruct (ctrl_int (slice (6 * r_width ro + 6) (6 * r_width ro + 9) l)) as [d|] eqn:D; [|discriminate].
  cbn [bind] in H. inversion H. apply ctrl_fits_iff. cbn [MAT MF MT].
  split; [|split]; (eapply ctrl_int_col; [lia| |eassumption]); rewrite length_slice; lia.
Qed.

(** ** End records *)
Lemma int_zero_field w : (1 <= w)%nat -> length (rjust w $"0") = w /\ read_fort_int (rjust w $"0") = Ok 0.
Proof.
  intros W. change $"0" with (str_of_Z 0). fold (int_field w 0). split; [|apply read_fort_int_field].
  apply length_int_field. apply in_field_fits; auto. unfold in_field.
  assert (0 < 10 ^ (Z.of_nat w - 1)) by (apply Z.pow_pos_nonneg; lia).
  assert (0 < 10 ^ (Z.of_nat w)) by (apply Z.pow_pos_nonneg; lia). lia.
Qed.
Lemma is_blank_spaces n : is_blank (spaces n) = true.
Proof. apply blank_iff. intros c H. apply repeat_spec in H. now subst. Qed.

Lemma zerostr_ok wo zab : field_width wo -> exists a b,
  zerostr_fields wo zab = Ok (concat [a; a; b; b; b; b]) /\ length a = w_width wo /\ length b = w_width wo /\
  read_fort_int b = Ok 0 /\
  forall ro, r_width ro = w_width wo -> exists v, read_fort_float ro a = Ok v /\ num_nonzero v = false.
Proof.
  intros W. unfold zerostr_fields. destruct zab; cbn [bind].
  - exists (spaces (w_width wo)), (spaces (w_width wo)). cbn [concat]. rewrite app_nil_r. split; [reflexivity|].
    unfold spaces at 1 2. rewrite repeat_length. split; [reflexivity|]. split; [reflexivity|]. split.
    + unfold read_fort_int. now rewrite is_blank_spaces.
    + intros ro R. exists (NFlt (S754_zero false)). split; [|reflexivity]. unfold read_fort_float, fortstr2float.
      rewrite firstn_all2 by (unfold spaces; rewrite repeat_length; lia). now rewrite is_blank_spaces.
  - destruct (zero_text_ok wo W) as (E & L & R). rewrite E. cbn [bind].
    exists (zero_text wo), (rjust (w_width wo) $"0"). cbn [concat]. rewrite app_nil_r. split; [reflexivity|].
    destruct (int_zero_field (w_width wo)) as [Li Ri]; [unfold field_width in W; lia|].
    do 3 (split; [assumption|]). intros ro Rw. rewrite R by exact Rw. destruct (r_preserve ro); eexists; split; reflexivity.
Qed.

Lemma write_ctrl_not_blank c pre suf : ~ blank (pre ++ write_ctrl c ++ suf).
Proof.
  intros B. unfold write_ctrl in B. destruct (str_of_Z (MAT c)) as [|x t] eqn:E; [now apply (str_of_Z_nonnil (MAT c))|].
  assert (N : no_ws (str_of_Z (MAT c))) by apply str_of_Z_no_ws. rewrite E in N.
  assert (X : is_ws x = true).
  { apply B. rewrite !in_app_iff. right. left. left. unfold rjust. rewrite in_app_iff. right. now left. }
  assert (Y : is_ws x = false) by (now inversion N). congruence.
Qed.

Lemma write_end_ok ro wo zab c ns : field_width wo -> r_width ro = w_width wo -> ctrl_fits c -> MT c = 0 ->
  exists l, write_end wo zab c ns = Ok [l] /\ end_record ro l (MAT c) (MF c) /\
    length l = (6 * w_width wo + 9 + (if w_linenum wo then length ns else 0))%nat /\
    skipn (6 * w_width wo) l = write_ctrl c ++ (if w_linenum wo then ns else []).
Proof.
  intros W Rw Cf M0. destruct (zerostr_ok wo zab W) as (a & b & E & La & Lb & Rb & Ra).
  unfold write_end. rewrite E. cbn [bind]. set (fs := [a; a; b; b; b; b]) in *.
  set (suf := write_ctrl c ++ (if w_linenum wo then ns else [])).
  assert (Wd : widths (w_width wo) fs) by (unfold widths, fs; repeat constructor; auto).
  assert (Lz : length (concat fs) = (6 * w_width wo)%nat) by (rewrite (length_concat_widths _ _ Wd); reflexivity).
  exists (concat fs ++ suf). split; [reflexivity|]. split; [|split].
  - destruct (Ra ro Rw) as (v & Rv & Zv).
    assert (FI : forall i f, nth_error fs i = Some f -> field (r_width ro) i (concat fs ++ suf) = f).
    { intros i f Hi. rewrite Rw. now apply field_concat. }
    unfold end_record. split; [|split; [|split; [|split; [|split; [|split; [|split]]]]]].
    + apply write_ctrl_not_blank.
    + apply carries_iff. unfold suf. rewrite read_ctrl_write by (auto; lia). destruct c; cbn in *; subst; reflexivity.
    + apply real_zero_iff. exists v. rewrite (FI 0%nat a) by reflexivity. auto.
    + apply real_zero_iff. exists v. rewrite (FI 1%nat a) by reflexivity. auto.
    + apply int_zero_iff. now rewrite (FI 2%nat b).
    + apply int_zero_iff. now rewrite (FI 3%nat b).
    + apply int_zero_iff. now rewrite (FI 4%nat b).
    + apply int_zero_iff. now rewrite (FI 5%nat b).
  - unfold suf. rewrite !app_length, Lz, (length_write_ctrl c Cf). destruct (w_linenum wo); cbn [length]; lia.
  - rewrite <- Lz, skipn_app, skipn_all, Nat.sub_diag. reflexivity.
Qed.

Lemma write_end_line ro wo zab c ns : field_width wo -> r_width ro = w_width wo -> ctrl_fits c -> MT c = 0 ->
  length ns = 5%nat -> exists l, write_end wo zab c ns = Ok [l] /\ end_line ro wo ns l (MAT c) (MF c).
Proof.
  intros W Rw Cf M0 Ln. destruct (write_end_ok ro wo zab c ns W Rw Cf M0) as (l & E & R & L & S).
  exists l. split; [exact E|]. split; [exact R|]. split; [rewrite L, Ln; destruct (w_linenum wo); lia|].
  replace (skipn (6 * w_width wo + 9) l) with (skipn 9 (skipn (6 * w_width wo) l)) by (rewrite skipn_skipn; f_equal; lia).
  rewrite S. rewrite <- (length_write_ctrl c Cf). rewrite skipn_app, skipn_all, Nat.sub_diag. reflexivity.
Qed.

(** ** Line numbers *)
Lemma number_lines_nth ofs : forall ls i k, nth_error (number_lines ofs i ls) k =
  option_map (fun l => l ++ rjust 5 (str_of_Z ((i + Z.of_nat k) mod 99999 + ofs))) (nth_error ls k).
Proof.
  induction ls as [|l ls IH]; intros i k; destruct k; cbn [number_lines nth_error option_map]; auto.
  - now rewrite Z.add_0_r.
  - rewrite IH. replace (i + 1 + Z.of_nat k) with (i + Z.of_nat (S k)) by lia. reflexivity.
Qed.
Lemma number_lines_length ofs : forall ls i, length (number_lines ofs i ls) = length ls.
Proof. induction ls; intros; cbn; auto. Qed.

Definition num_start (mf : Z) : Z := if mf =? 0 then 0 else 1.

Lemma add_linenumbers_spec wo ls out : add_linenumbers_to_section wo ls = Ok out ->
  exists l0 c, nth_error ls 0 = Some l0 /\ read_ctrl (ctrl_ropts (w_width wo)) l0 = Ok c /\
    numbered wo (num_start (MF c)) ls out.
Proof.
  unfold add_linenumbers_to_section, get_line. destruct ls as [|l0 r]; [discriminate|]. cbn [nth_error bind].
  destruct (read_ctrl _ l0) as [c|] eqn:RC; [|discriminate]. cbn [bind]. intros H. exists l0, c.
  split; [reflexivity|]. split; [exact RC|].
  unfold numbered. set (ls := l0 :: r) in *. rewrite (Nat.mul_comm 6).
  assert (X : forall a b : list str, Ok a = Ok b -> a = b) by congruence.
  clearbody ls. destruct (w_linenum wo) eqn:LN; cbn [negb] in H; apply X in H; subst out.
  - split; [now rewrite number_lines_length, map_length|]. intros i l Hi.
    rewrite number_lines_nth, nth_error_map. unfold str in *. rewrite Hi. reflexivity.
  - split; [apply map_length|]. intros i l Hi. rewrite nth_error_map. unfold str in *. rewrite Hi. cbn. now rewrite app_nil_r.
Qed.

Lemma add_linenumbers_ok wo l0 r c : read_ctrl (ctrl_ropts (w_width wo)) l0 = Ok c ->
  exists out, add_linenumbers_to_section wo (l0 :: r) = Ok out.
Proof.
  intros H. unfold add_linenumbers_to_section, get_line. cbn [nth_error bind]. rewrite H. cbn [bind].
  destruct (negb _); eauto.
Qed.

Lemma slice_firstn {A} a b n (l : list A) : (b <= n)%nat -> slice a b (firstn n l) = slice a b l.
Proof. intros H. unfold slice. rewrite skipn_firstn_comm, firstn_firstn. f_equal. lia. Qed.

Lemma carries_cut w l suf a b c : (6 * w + 9 <= length l)%nat ->
  carries w (firstn (6 * w + 9) l ++ suf) a b c <-> carries w l a b c.
Proof.
  intros L. unfold carries.
  rewrite !slice_app_l by (rewrite firstn_length; lia). rewrite !slice_firstn by lia. reflexivity.
Qed.

(** ** Sorting *)
Lemma zinsert_perm {A} k (v : A) d : Permutation (zinsert k v d) ((k, v) :: d).
Proof.
  induction d as [|[k' v'] d IH]; cbn; [reflexivity|]. destruct (k <=? k'); [reflexivity|].
  rewrite IH. apply perm_swap.
Qed.
Lemma zsort_perm {A} (d : list (Z * A)) : Permutation (zsort d) d.
Proof.
  induction d as [|[k v] d IH]; cbn; [reflexivity|]. rewrite zinsert_perm. now rewrite IH.
Qed.
Lemma zinsert_sorted {A} k (v : A) d : StronglySorted Z.le (map fst d) -> StronglySorted Z.le (map fst (zinsert k v d)).
Proof.
  induction d as [|[k' v'] d IH]; cbn [zinsert map fst]; intros S; [repeat constructor|].
  inversion S as [|? ? S' F]; subst. destruct (Z.leb_spec k k').
  - cbn [map fst]. constructor; [exact S|]. constructor; [exact H|]. eapply Forall_impl; [|exact F]. cbn. lia.
  - cbn [map fst]. constructor; [now apply IH|].
    assert (P : Permutation (map fst (zinsert k v d)) (k :: map fst d)) by (rewrite zinsert_perm; reflexivity).
    rewrite P. constructor; [lia|exact F].
Qed.
Lemma zsort_ascending {A} (d : list (Z * A)) : is_dict d -> ascending (map fst (zsort d)).
Proof.
  intros N. assert (S : StronglySorted Z.le (map fst (zsort d))).
  { induction d as [|[k v] d IH]; cbn [zsort fold_right]; [constructor|]. apply zinsert_sorted. apply IH. now inversion N. }
  assert (N' : NoDup (map fst (zsort d))) by (rewrite zsort_perm; exact N).
  unfold ascending. clear N. induction S as [|x l S IH F]; constructor; inversion N'; subst; auto.
  rewrite Forall_forall in *. intros y Hy. specialize (F y Hy). assert (x <> y) by (intros ->; contradiction). lia.
Qed.
Lemma zsort_in {A} (d : list (Z * A)) x : In x (zsort d) <-> In x d.
Proof. split; apply Permutation_in; [|symmetry]; apply zsort_perm. Qed.

(** ** Selections *)
Lemma listed_iff l mf mt : listed l mf mt <-> sel_mf mf l || sel_mfmt mf mt l = true.
Proof.
  unfold listed, sel_mf, sel_mfmt. rewrite orb_true_iff, !existsb_exists. split.
  - intros [H|H]; [left; exists (SMf mf)|right; exists (SMfMt mf mt)]; (split; [exact H|]); rewrite ?Z.eqb_refl; reflexivity.
  - intros [([m|m t] & I & E)|([m|m t] & I & E)]; try discriminate.
    + left. apply Z.eqb_eq in E. now subst.
    + right. apply andb_true_iff in E as [E1 E2]. apply Z.eqb_eq in E1, E2. now subst.
Qed.
Lemma selected_iff mf mt exc inc : selected exc inc mf mt <-> should_skip_section mf mt exc inc = false.
Proof.
  unfold selected, should_skip_section. destruct exc as [e|]; [|destruct inc as [i|]].
  - rewrite listed_iff. apply not_true_iff_false.
  - rewrite listed_iff. destruct (sel_mf mf i), (sel_mfmt mf mt i); cbn; intuition discriminate.
  - tauto.
Qed.

(** ** Structure of written tapes *)
Section Structure.
  Context {D : Type}.
  Variable run_recipe : Z -> Z -> D -> result (list str * ctrl).
  Variables (ro : ropts) (wo : wopts) (zab : bool) (exc inc : selection).
  Hypothesis W : field_width wo.
  Hypothesis Rw : r_width ro = w_width wo.
  Hypothesis Rf : forall mf mt d ls c, run_recipe mf mt d = Ok (ls, c) -> ctrl_fits c.

  Let wsec := write_section run_recipe ro wo zab.

  Lemma ctrl_ropts_carries l c : read_ctrl (ctrl_ropts (w_width wo)) l = Ok c <->
    carries (w_width wo) l (MAT c) (MF c) (MT c).
  Proof. destruct c as [a b d]. apply (carries_iff (ctrl_ropts (w_width wo)) l a b d). Qed.

  Lemma ro_carries l c : read_ctrl ro l = Ok c <-> carries (w_width wo) l (MAT c) (MF c) (MT c).
  Proof. rewrite <- Rw. destruct c as [a b d]. apply (carries_iff ro l a b d). Qed.

  Lemma add_linenumbers_first ls out : add_linenumbers_to_section wo ls = Ok out ->
    exists start, first_number (w_width wo) ls start /\ numbered wo start ls out.
  Proof.
    intros H. apply add_linenumbers_spec in H as (l0 & c & N0 & RC & Nu). exists (num_start (MF c)). split; [|exact Nu].
    destruct ls as [|l r]; [discriminate|]. cbn in N0. inversion N0; subst l0.
    apply ctrl_ropts_carries in RC. exists l, r, (MAT c), (MF c), (MT c). auto.
  Qed.

  Lemma sec_ok mf mt x ls c : mf <> 0 -> wsec mf mt x = Ok (ls, c) ->
    ctrl_fits c /\ exists s, ls = section_lines s /\ s_mt s = mt /\ section_output run_recipe ro wo mf x s c.
  Proof.
    intros M. unfold wsec, write_section. destruct x as [rl|d].
    - destruct (add_linenumbers_to_section wo rl) as [num|] eqn:A; [|discriminate]. cbn [bind].
      destruct (read_ctrl ro (last num [])) as [c'|] eqn:RC; [|discriminate]. cbn [bind].
      destruct (Z.eqb_spec mf 0); [contradiction|]. pose proof (read_ctrl_fits _ _ _ RC) as Fc.
      destruct (write_end_line ro wo zab {| MAT := MAT c'; MF := MF c'; MT := 0 |} $"99999" W Rw) as (l & E & Er).
      { destruct Fc as (F1 & F2 & F3). repeat split; cbn; lia. }
      { reflexivity. }
      { reflexivity. }
      unfold write_send. rewrite E. cbn [bind]. intros H; inversion H; subst. split; [exact Fc|].
      exists {| s_mt := mt; s_body := num; s_send := l |}. do 2 (split; [reflexivity|]).
      apply add_linenumbers_first in A as (st & Fn & Nu). exists st. cbn [s_body s_send].
      split; [exact Nu|]. split; [exact Fn|]. split; [now apply ro_carries|exact Er].
    - destruct (run_recipe mf mt d) as [[l0 c']|] eqn:R; [|discriminate]. cbn [bind].
      destruct (Z.eqb_spec mf 0); [contradiction|].
      destruct (add_linenumbers_to_section wo (removelast l0)) as [num|] eqn:A; [|discriminate]. cbn [bind].
      intros H; inversion H; subst. split; [eapply Rf; eauto|].
      exists {| s_mt := mt; s_body := num; s_send := last l0 [] |}. do 2 (split; [reflexivity|]).
      apply add_linenumbers_first in A as (st & Fn & Nu). exists st, (removelast l0). cbn [s_mt s_send s_body].
      rewrite <- app_removelast_last; [auto|]. intros ->. destruct Fn as (? & ? & ? & ? & ? & X & _). discriminate X.
  Qed.

  Lemma head_ok mt x ls c : wsec 0 mt x = Ok (ls, c) -> head_output run_recipe wo mt x ls.
  Proof.
    unfold wsec, write_section. destruct x as [rl|d].
    - destruct (add_linenumbers_to_section wo rl) as [num|] eqn:A; [|discriminate]. cbn [bind].
      destruct (read_ctrl ro (last num [])) as [c'|] eqn:RC; [|discriminate]. cbn [bind Z.eqb].
      intros H; inversion H; subst. apply add_linenumbers_first in A as (st & Fn & Nu). exists st. auto.
    - destruct (run_recipe 0 mt d) as [[l0 c']|] eqn:R; [|discriminate]. cbn [bind Z.eqb].
      destruct (add_linenumbers_to_section wo l0) as [num|] eqn:A; [|discriminate]. cbn [bind].
      intros H; inversion H; subst. apply add_linenumbers_first in A as (st & Fn & Nu). exists st, l0, c. auto.
  Qed.

  Definition keep (mf : Z) (mts : list (Z * section D)) : list (Z * section D) :=
    filter (fun e => negb (should_skip_section mf (fst e) exc inc)) mts.

  Definition out_rel mf (e : Z * section D) (sc : tsection * ctrl) : Prop :=
    s_mt (fst sc) = fst e /\ section_output run_recipe ro wo mf (snd e) (fst sc) (snd sc).

  Lemma mts_ok mf : mf <> 0 -> forall mts cur ls cur',
    write_mts run_recipe ro wo zab exc inc mf mts cur = Ok (ls, cur') ->
    exists scs, ls = concat (map (fun sc => section_lines (fst sc)) scs) /\ Forall2 (out_rel mf) (keep mf mts) scs /\
      Forall (fun sc => ctrl_fits (snd sc)) scs /\
      cur' = match rev scs with [] => cur | sc :: _ => Some (snd sc) end.
  Proof.
    intros M. induction mts as [|[mt x] r IH]; intros cur ls cur' H; cbn [write_mts] in H.
    - inversion H; subst. exists []. repeat split; constructor.
    - cbn [keep filter fst]. destruct (should_skip_section mf mt exc inc) eqn:S; cbn [negb].
      + apply IH in H. exact H.
      + destruct (write_section run_recipe ro wo zab mf mt x) as [[l1 c]|] eqn:E; [|discriminate]. cbn [bind] in H.
        destruct (write_mts run_recipe ro wo zab exc inc mf r (Some c)) as [[l2 c2]|] eqn:E2; [|discriminate].
        cbn [bind] in H. inversion H; subst. apply IH in E2 as (scs & -> & F2 & Fc & Cu).
        destruct (sec_ok mf mt x l1 c M E) as (Fcc & s & -> & Sm & So).
        exists ((s, c) :: scs). split; [reflexivity|]. split; [constructor; [split; auto|exact F2]|].
        split; [constructor; auto|]. cbn [rev]. rewrite Cu. destruct (rev scs); reflexivity.
  Qed.

  Definition hout_rel (e : Z * section D) (o : Z * list str) : Prop :=
    fst o = fst e /\ head_output run_recipe wo (fst e) (snd e) (snd o).

  Lemma mts_head_ok : forall mts cur ls cur',
    write_mts run_recipe ro wo zab exc inc 0 mts cur = Ok (ls, cur') ->
    exists hs, ls = concat (map snd hs) /\ Forall2 hout_rel (keep 0 mts) hs.
  Proof.
    induction mts as [|[mt x] r IH]; intros cur ls cur' H; cbn [write_mts] in H.
    - inversion H; subst. exists []. repeat split; constructor.
    - cbn [keep filter fst]. destruct (should_skip_section 0 mt exc inc) eqn:S; cbn [negb].
      + apply IH in H. exact H.
      + destruct (write_section run_recipe ro wo zab 0 mt x) as [[l1 c]|] eqn:E; [|discriminate]. cbn [bind] in H.
        destruct (write_mts run_recipe ro wo zab exc inc 0 r (Some c)) as [[l2 c2]|] eqn:E2; [|discriminate].
        cbn [bind] in H. inversion H; subst. apply IH in E2 as (hs & -> & F2).
        exists ((mt, l1) :: hs). split; [reflexivity|]. constructor; [|exact F2]. split; [reflexivity|].
        cbn [fst snd]. eapply head_ok; eauto.
  Qed.

  (** what a file looks like *)
  Definition file_rel (e : Z * list (Z * section D)) (f : tfile) : Prop :=
    f_mf f = fst e /\ exists scs, f_secs f = map fst scs /\ scs <> [] /\
      Forall2 (out_rel (fst e)) (keep (fst e) (zsort (snd e))) scs /\
      exists s c, last scs (s, c) = (s, c) /\ In (s, c) scs /\ end_line ro wo $"    0" (f_fend f) (MAT c) 0.

  Lemma fend_ok c : ctrl_fits c -> exists l, write_fend wo zab c = Ok [l] /\ end_line ro wo $"    0" l (MAT c) 0.
  Proof.
    intros (F1 & F2 & F3).
    destruct (write_end_line ro wo zab {| MAT := MAT c; MF := 0; MT := 0 |} $"    0" W Rw) as (l & E & Er).
    { repeat split; cbn; lia. } { reflexivity. } { reflexivity. } exists l. auto.
  Qed.

  Lemma rev_last {A : Type} (l : list A) x r d : rev l = x :: r -> last l d = x /\ In x l /\ l <> [].
  Proof.
    intros H. assert (E : l = rev r ++ [x]) by (rewrite <- (rev_involutive l), H; reflexivity). subst l.
    split; [apply last_last|]. split; [apply in_or_app; right; now left|]. destruct (rev r); discriminate.
  Qed.

  Definition nonempty (e : Z * list (Z * section D)) : bool :=
    match keep (fst e) (zsort (snd e)) with [] => false | _ => true end.

  Lemma mfs_ok : forall mfs ls, Forall (fun e => fst e <> 0) mfs ->
    write_mfs run_recipe ro wo zab exc inc mfs = Ok ls ->
    exists fs, ls = concat (map file_lines fs) /\ Forall2 file_rel (filter nonempty mfs) fs.
  Proof.
    induction mfs as [|[mf mts] r IH]; intros ls F H; cbn [write_mfs] in H.
    - inversion H; subst. exists []. repeat split; constructor.
    - inversion F as [|? ? M F']; subst. cbn [fst] in M.
      destruct (write_mts run_recipe ro wo zab exc inc mf (zsort mts) None) as [[l1 cur]|] eqn:E; [|discriminate].
      cbn [bind] in H. destruct (mts_ok mf M _ _ _ _ E) as (scs & -> & F2 & Fc & ->).
      unfold nonempty at 1. cbn [filter fst snd]. destruct (rev scs) as [|[s c] rv] eqn:RV.
      + assert (scs = []) as -> by (rewrite <- (rev_involutive scs), RV; reflexivity).
        assert (K : keep mf (zsort mts) = []) by now inversion F2. rewrite K. cbn [bind map concat app] in H.
        destruct (write_mfs run_recipe ro wo zab exc inc r) as [l2|] eqn:E2; [|discriminate]. cbn [bind] in H.
        inversion H; subst. apply (IH _ F' eq_refl).
      + cbn [snd] in H. destruct (rev_last scs (s, c) rv (s, c) RV) as (La & Ic & Ne).
        destruct (Z.eqb_spec mf 0); [contradiction|].
        assert (Cf : ctrl_fits c) by (rewrite Forall_forall in Fc; apply (Fc (s, c) Ic)).
        destruct (fend_ok c Cf) as (l & Ef & Er). rewrite Ef in H. cbn [bind] in H.
        destruct (write_mfs run_recipe ro wo zab exc inc r) as [l2|] eqn:E2; [|discriminate]. cbn [bind] in H.
        inversion H; subst. destruct (IH l2 F' eq_refl) as (fs & -> & F3).
        exists ({| f_mf := mf; f_secs := map fst scs; f_fend := l |} :: fs). split.
        * cbn [map concat]. unfold file_lines at 2. cbn [f_secs f_fend]. rewrite map_map, <- app_assoc. reflexivity.
        * destruct (keep mf (zsort mts)) eqn:K; [inversion F2; subst; contradiction|]. constructor; [|exact F3].
          split; [reflexivity|]. exists scs. cbn [f_secs f_fend fst snd]. rewrite K. split; [reflexivity|].
          split; [exact Ne|]. split; [exact F2|]. exists s, c. auto.
  Qed.

  Lemma keep_in mf mts mt x : In (mt, x) (keep mf mts) <-> selected exc inc mf mt /\ In (mt, x) mts.
  Proof.
    unfold keep. rewrite filter_In, selected_iff. cbn [fst]. destruct (should_skip_section mf mt exc inc); cbn; intuition discriminate.
  Qed.
  Lemma ascending_filter {A} (p : Z * A -> bool) l : ascending (map fst l) -> ascending (map fst (filter p l)).
  Proof.
    unfold ascending. induction l as [|x l IH]; cbn [filter map]; auto. intros S; inversion S as [|? ? S' F]; subst.
    destruct (p x); cbn [map]; auto. constructor; auto. rewrite Forall_forall in *. intros y Hy. apply F.
    apply in_map_iff in Hy as (z & <- & Hz). apply filter_In in Hz as [Hz _]. now apply in_map.
  Qed.
  Lemma Forall2_map_fst {A B} (R : Z * A -> B -> Prop) (g : B -> Z) l l' :
    (forall a b, R a b -> g b = fst a) -> Forall2 R l l' -> map g l' = map fst l.
  Proof. intros H. induction 1; cbn; auto. f_equal; auto. Qed.
  Lemma Forall2_in_r {A B} (R : A -> B -> Prop) l l' b : Forall2 R l l' -> In b l' -> exists a, In a l /\ R a b.
  Proof. induction 1; intros []; subst; [exists x; split; [now left|auto]|]. destruct IHForall2 as (a & I & r); auto. exists a. split; [now right|auto]. Qed.
  Lemma Forall2_in_l {A B} (R : A -> B -> Prop) l l' a : Forall2 R l l' -> In a l -> exists b, In b l' /\ R a b.
  Proof. induction 1; intros []; subst; [exists y; split; [now left|auto]|]. destruct IHForall2 as (b & I & r); auto. exists b. split; [now right|auto]. Qed.

  Lemma mend_ok : exists l, write_mend wo zab = Ok [l] /\ end_line ro wo $"    0" l 0 0.
  Proof.
    destruct (write_end_line ro wo zab {| MAT := 0; MF := 0; MT := 0 |} $"    0" W Rw) as (l & E & Er).
    { repeat split; cbn; lia. } { reflexivity. } { reflexivity. } exists l. auto.
  Qed.
  Lemma tend_ok : exists l, write_tend wo zab = Ok [l] /\ end_line ro wo $"    0" l (-1) 0.
  Proof.
    destruct (write_end_line ro wo zab {| MAT := -1; MF := 0; MT := 0 |} $"    0" W Rw) as (l & E & Er).
    { repeat split; cbn; lia. } { reflexivity. } { reflexivity. } exists l. auto.
  Qed.

  Lemma file_rel_spec d mf mts f : is_dict2 d -> In (mf, mts) d -> file_rel (mf, mts) f ->
    f_secs f <> [] /\ ascending (map s_mt (f_secs f)) /\
    (forall s, In s (f_secs f) -> exists x c, holds d (f_mf f) (s_mt s) x /\ section_output run_recipe ro wo (f_mf f) x s c) /\
    (exists pre s x c, f_secs f = pre ++ [s] /\ holds d (f_mf f) (s_mt s) x /\
      section_output run_recipe ro wo (f_mf f) x s c /\ end_line ro wo $"    0" (f_fend f) (MAT c) 0) /\
    (forall mt, In mt (map s_mt (f_secs f)) <-> selected exc inc mf mt /\ exists x, holds d mf mt x).
  Proof.
    intros [Dd Ds] I (Mf & scs & Es & Ne & F2 & s & c & La & Ic & Er). cbn [fst snd] in *.
    assert (Ks : map s_mt (f_secs f) = map fst (keep mf (zsort mts))).
    { rewrite Es, map_map. apply (Forall2_map_fst (out_rel mf)); auto. intros a b [H _]. exact H. }
    assert (Ho : forall sc, In sc scs -> exists x, holds d (f_mf f) (s_mt (fst sc)) x /\
       section_output run_recipe ro wo (f_mf f) x (fst sc) (snd sc)).
    { intros sc Isc. destruct (Forall2_in_r _ _ _ _ F2 Isc) as ([mt x] & Ie & Hm & Ho). cbn [fst snd] in *.
      apply keep_in in Ie as [_ Ie]. exists x. rewrite Mf. split; [|exact Ho].
      exists mts. split; [exact I|]. rewrite Hm. now apply zsort_in. }
    split; [rewrite Es; destruct scs; [contradiction|discriminate]|].
    split; [rewrite Ks; apply ascending_filter, zsort_ascending; eapply Ds; eauto|]. split; [|split].
    - intros s0 Is. rewrite Es in Is. apply in_map_iff in Is as ([s1 c1] & <- & Is). destruct (Ho _ Is) as (x & H1 & H2).
      exists x, c1. auto.
    - destruct (exists_last Ne) as (pre & [s1 c1] & E1). rewrite E1 in La. rewrite last_last in La. inversion La; subst s1 c1.
      destruct (Ho _ Ic) as (x & H1 & H2). exists (map fst pre), s, x, c. rewrite Es, E1, map_app. auto.
    - intros mt. rewrite Ks, in_map_iff. split.
      + intros ([mt' x] & <- & H). apply keep_in in H as [Hs H]. split; [exact Hs|]. exists x, mts. split; [exact I|].
        now apply zsort_in.
      + intros (Hs & x & sub & Isub & Ix). assert (sub = mts).
        { pose proof (in_zget _ _ _ Dd Isub). pose proof (in_zget _ _ _ Dd I). congruence. } subst sub.
        exists (mt, x). split; [reflexivity|]. apply keep_in. split; [exact Hs|]. now apply zsort_in.
  Qed.

  Lemma skeleton_files d mfs fs : is_dict2 d -> ascending (0 :: map fst mfs) ->
    (forall e, In e mfs <-> In e d /\ fst e <> 0) -> Forall2 file_rel (filter nonempty mfs) fs ->
    ascending (0 :: map f_mf fs) /\
    (forall mf mt, mf <> 0 ->
     ((exists f s, In f fs /\ f_mf f = mf /\ In s (f_secs f) /\ s_mt s = mt) <->
      selected exc inc mf mt /\ exists x, holds d mf mt x)) /\
    Forall (fun f => f_secs f <> [] /\ ascending (map s_mt (f_secs f)) /\
      (forall s, In s (f_secs f) -> exists x c, holds d (f_mf f) (s_mt s) x /\ section_output run_recipe ro wo (f_mf f) x s c) /\
      exists pre s x c, f_secs f = pre ++ [s] /\ holds d (f_mf f) (s_mt s) x /\
        section_output run_recipe ro wo (f_mf f) x s c /\ end_line ro wo $"    0" (f_fend f) (MAT c) 0) fs.
  Proof.
    intros Dd As Mi F2.
    assert (Km : map f_mf fs = map fst (filter nonempty mfs)).
    { apply (Forall2_map_fst file_rel); auto. intros a b [H _]. exact H. }
    split; [|split].
    - rewrite Km. inversion As as [|? ? A1 A2]; subst. constructor; [now apply ascending_filter|].
      rewrite Forall_forall in *. intros y Hy. apply A2. apply in_map_iff in Hy as (z & <- & Hz).
      apply filter_In in Hz as [Hz _]. now apply in_map.
    - intros mf mt M. split.
      + intros (f & s & If & Mf & Is & Ms). destruct (Forall2_in_r _ _ _ _ F2 If) as ([mf' mts] & Ie & Hr).
        apply filter_In in Ie as [Ie _]. apply Mi in Ie as [Ie _].
        destruct (file_rel_spec d mf' mts f Dd Ie Hr) as (_ & _ & _ & _ & K). destruct Hr as [E _]. cbn [fst] in E.
        assert (Hm : mf' = mf) by congruence. rewrite Hm in K. apply (proj1 (K mt)). rewrite <- Ms. now apply in_map.
      + intros (Hs & x & sub & Isub & Ix).
        assert (Kp : In (mt, x) (keep mf (zsort sub))) by (apply keep_in; split; [exact Hs|now apply zsort_in]).
        assert (Ie : In (mf, sub) (filter nonempty mfs)).
        { apply filter_In. split; [apply Mi; auto|]. unfold nonempty. cbn [fst snd]. destruct (keep mf (zsort sub)); [contradiction|reflexivity]. }
        destruct (Forall2_in_l _ _ _ _ F2 Ie) as (f & If & Hr).
        destruct (file_rel_spec d mf sub f Dd Isub Hr) as (_ & _ & _ & _ & K). destruct Hr as [E _]. cbn [fst] in E.
        assert (Im : In mt (map s_mt (f_secs f))) by (apply (proj2 (K mt)); split; [exact Hs|]; exists x, sub; auto).
        apply in_map_iff in Im as (s & Es & Is). exists f, s. auto.
    - rewrite Forall_forall. intros f If. destruct (Forall2_in_r _ _ _ _ F2 If) as ([mf' mts] & Ie & Hr).
      apply filter_In in Ie as [Ie _]. apply Mi in Ie as [Ie _].
      destruct (file_rel_spec d mf' mts f Dd Ie Hr) as (A & B & C & E & _). auto.
  Qed.

  Lemma write_skeleton (d : list (Z * list (Z * section D))) lines : is_dict2 d -> (forall mf sub, In (mf, sub) d -> 0 <= mf) ->
    write_tape run_recipe ro wo zab exc inc d = Ok lines ->
    exists t, lines = written_lines t /\ skeleton run_recipe ro wo exc inc d t.
  Proof.
    intros Dd Pos H. unfold write_tape in H.
    change (mtdic (section D)) with (list (Z * section D)) in H.
    destruct (write_mfs run_recipe ro wo zab exc inc (zsort d)) as [ls|] eqn:E; [|discriminate H]. cbn [bind] in H.
    destruct mend_ok as (lm & Em & Rm). destruct tend_ok as (lt & Et & Rt). rewrite Em, Et in H. cbn [bind] in H.
    inversion H; subst lines. clear H.
    pose proof (zsort_ascending d (proj1 Dd)) as As. pose proof (zsort_in d) as Zi. destruct Dd as [D1 D2].
    assert (G : exists hs fs mfs, ls = concat (map snd hs) ++ concat (map file_lines fs) /\
       ascending (map fst hs) /\
       (forall mt, In mt (map fst hs) <-> selected exc inc 0 mt /\ exists x, holds d 0 mt x) /\
       (forall mt out, In (mt, out) hs -> exists x, holds d 0 mt x /\ head_output run_recipe wo mt x out) /\
       ascending (0 :: map fst mfs) /\ (forall e, In e mfs <-> In e d /\ fst e <> 0) /\
       Forall2 file_rel (filter nonempty mfs) fs).
    { destruct (zsort d) as [|[mf mts] r] eqn:Ez.
      - cbn in E. inversion E; subst. exists [], [], []. split; [reflexivity|]. split; [constructor|].
        split; [intros mt; split; [intros []|intros (_ & x & sub & I & _); apply Zi in I; contradiction]|].
        split; [intros ? ? []|]. split; [repeat constructor|]. split; [|constructor].
        intros e; split; [intros []|intros [I _]; apply Zi in I; contradiction].
      - inversion As as [|? ? A1 A2]; subst. cbn [map fst] in A1, A2.
        assert (P0 : 0 <= mf) by (apply (Pos mf mts); apply Zi; now left).
        destruct (Z.eq_dec mf 0) as [->|Nz].
        + cbn [write_mfs] in E.
          destruct (write_mts run_recipe ro wo zab exc inc 0 (zsort mts) None) as [[l1 cur]|] eqn:E1; [|discriminate].
          cbn [bind] in E. assert (E' : (do rest <- write_mfs run_recipe ro wo zab exc inc r; Ok (l1 ++ [] ++ rest)) = Ok ls).
          { destruct cur; cbn [Z.eqb] in E; exact E. } clear E.
          destruct (write_mfs run_recipe ro wo zab exc inc r) as [l2|] eqn:E2; [|discriminate]. cbn [bind app] in E'.
          inversion E'; subst ls. clear E'. apply mts_head_ok in E1 as (hs & -> & F1).
          assert (Nr : forall e, In e r <-> In e d /\ fst e <> 0).
          { intros e. rewrite <- Zi. rewrite Forall_forall in A2. split.
            - intros I. split; [now right|]. assert (0 < fst e) by (apply A2; now apply in_map). lia.
            - intros [[<-|I] N]; [contradiction N; reflexivity|exact I]. }
          apply mfs_ok in E2 as (fs & -> & F2); [|rewrite Forall_forall; intros e I; now apply Nr].
          assert (I0 : In (0, mts) d) by (apply Zi; now left).
          assert (Kh : map fst hs = map fst (keep 0 (zsort mts))).
          { apply (Forall2_map_fst hout_rel); auto. intros a b [X _]. exact X. }
          exists hs, fs, r. split; [reflexivity|]. split; [|split; [|split; [|split; [|split; [exact Nr|exact F2]]]]].
          * rewrite Kh. apply ascending_filter, zsort_ascending. eapply D2; eauto.
          * intros mt. rewrite Kh, in_map_iff. split.
            -- intros ([mt' x] & <- & X). apply keep_in in X as [Hs X]. split; [exact Hs|]. exists x, mts. split; [exact I0|].
               now apply zsort_in.
            -- intros (Hs & x & sub & Isub & Ix). assert (sub = mts).
               { pose proof (in_zget _ _ _ D1 Isub). pose proof (in_zget _ _ _ D1 I0). congruence. } subst sub.
               exists (mt, x). split; [reflexivity|]. apply keep_in. split; [exact Hs|]. now apply zsort_in.
          * intros mt out Io. destruct (Forall2_in_r _ _ _ _ F1 Io) as ([mt' x] & Ie & Hm & Ho). cbn [fst snd] in *. subst mt'.
            apply keep_in in Ie as [_ Ie]. exists x. split; [|exact Ho]. exists mts. split; [exact I0|]. now apply zsort_in.
          * constructor; auto.
        + assert (N0 : forall e, In e ((mf, mts) :: r) -> fst e <> 0).
          { intros e [<-|I]; [exact Nz|]. rewrite Forall_forall in A2. assert (mf < fst e) by (apply A2; now apply in_map). lia. }
          apply mfs_ok in E as (fs & -> & F2); [|rewrite Forall_forall; exact N0].
          exists [], fs, ((mf, mts) :: r). split; [reflexivity|]. split; [constructor|].
          split; [|split; [intros ? ? []|split; [|split; [|exact F2]]]].
          * intros mt; split; [intros []|]. intros (_ & x & sub & I & _). apply Zi in I. now apply N0 in I.
          * constructor; [exact As|]. cbn [map fst]. constructor; [lia|]. eapply Forall_impl; [|exact A2]. cbn. lia.
          * intros e. rewrite <- Zi. split; [intros I; split; [exact I|now apply N0]|tauto]. }
    destruct G as (hs & fs & mfs & -> & H1 & H2 & H3 & H4 & H5 & H6).
    destruct (skeleton_files d mfs fs (conj D1 D2) H4 H5 H6) as (K1 & K2 & K3).
    exists {| wr_head := hs; wr_files := fs; wr_mend := lm; wr_tend := lt |}. split.
    - unfold written_lines. cbn. rewrite <- app_assoc. reflexivity.
    - unfold skeleton. cbn. do 6 (split; [assumption|]). auto.
  Qed.
End Structure.

(** ** Width of written lines *)
Lemma nth_error_lt {A} (l : list A) i x : nth_error l i = Some x -> (i < length l)%nat.
Proof. intros H. apply nth_error_Some. congruence. Qed.
Lemma number_width i start : 0 <= start <= 1 -> length (rjust 5 (str_of_Z (Z.of_nat i mod 99999 + start))) = 5%nat.
Proof.
  intros S. fold (int_field 5 (Z.of_nat i mod 99999 + start)). apply length_int_field. apply in_field_fits; [lia|].
  unfold in_field. change (Z.of_nat 5) with 5. pose proof (Z.mod_pos_bound (Z.of_nat i) 99999). lia.
Qed.

Lemma numbered_widths wo start ls out : 0 <= start <= 1 -> numbered wo start ls out -> long_lines wo ls ->
  Forall (fun l => length l = line_width wo) out.
Proof.
  intros S [L N] F. apply Forall_forall. intros l' I. apply In_nth_error in I as (i & Hi).
  destruct (nth_error ls i) as [l|] eqn:E.
  - pose proof (eq_trans (eq_sym (N i l E)) Hi) as Q; inversion Q; subst l'; clear Q. rewrite app_length, firstn_length.
    assert (6 * w_width wo + 9 <= length l)%nat by (unfold long_lines in F; rewrite Forall_forall in F; apply F; eapply nth_error_In; eauto).
    unfold line_width. destruct (w_linenum wo); [rewrite number_width by exact S|cbn [length]]; lia.
  - exfalso. apply nth_error_None in E. apply nth_error_lt in Hi. unfold str in *. lia.
Qed.

Lemma first_number_range w ls start : first_number w ls start -> 0 <= start <= 1.
Proof. intros (l & r & a & b & c & _ & _ & ->). destruct (b =? 0); lia. Qed.

Lemma written_widths {D} (rr : Z -> Z -> D -> result (list str * ctrl)) ro wo exc inc d t :
  skeleton rr ro wo exc inc d t ->
  (forall mf mt ls, holds d mf mt (Raw ls) -> long_lines wo ls) ->
  (forall mt x ls c, holds d 0 mt (Parsed x) -> rr 0 mt x = Ok (ls, c) -> long_lines wo ls) ->
  (forall mf mt x ls l c, mf <> 0 -> holds d mf mt (Parsed x) -> rr mf mt x = Ok (ls ++ [l], c) ->
     long_lines wo ls /\ length l = line_width wo) ->
  Forall (fun l => length l = line_width wo) (written_lines t).
Proof.
  intros (_ & _ & Hh & As & _ & Hf & (_ & Hm & _) & (_ & Ht & _)) Raws Heads Secs.
  unfold written_lines. apply Forall_app. split; [|apply Forall_app; split].
  - apply Forall_concat. apply Forall_map. apply Forall_forall. intros [mt out] I. cbn [snd].
    destruct (Hh mt out I) as ([rl|x] & Ho & st & O).
    + destruct O as [Nu Fn]. apply (numbered_widths wo st rl); eauto using first_number_range.
    + destruct O as (ls & c & R & Fn & Nu). apply (numbered_widths wo st ls); eauto using first_number_range.
  - apply Forall_concat. apply Forall_map. apply Forall_forall. intros f I.
    assert (Nz : f_mf f <> 0).
    { inversion As as [|? ? _ A2]; subst. rewrite Forall_forall in A2. assert (0 < f_mf f) by (apply A2; now apply in_map). lia. }
    rewrite Forall_forall in Hf. destruct (Hf f I) as (_ & _ & Hs & (pre & s0 & x0 & c0 & _ & _ & _ & (_ & Hl & _))).
    unfold file_lines. apply Forall_app. split; [|constructor; [exact Hl|constructor]].
    apply Forall_concat. apply Forall_map. apply Forall_forall. intros s Is.
    destruct (Hs s Is) as ([rl|x] & c & Ho & st & O); unfold section_lines; apply Forall_app.
    + destruct O as (Nu & Fn & _ & (_ & Le & _)). split; [|repeat constructor; exact Le].
      apply (numbered_widths wo st rl); eauto using first_number_range.
    + destruct O as (ls & R & Fn & Nu). destruct (Secs _ _ _ _ _ _ Nz Ho R) as [Lg Ll]. split; [|repeat constructor; exact Ll].
      apply (numbered_widths wo st ls); eauto using first_number_range.
  - repeat constructor; assumption.
Qed.

(** ** Writing and reading verbatim sections *)
  Lemma numbered_carries wo start ls out mat mf mt : numbered wo start ls out ->
    Forall (fun l => carries (w_width wo) l mat mf mt /\ (6 * w_width wo + 9 <= length l)%nat) ls ->
    Forall (fun l => carries (w_width wo) l mat mf mt) out.
  Proof.
    intros [L N] F. rewrite Forall_forall in *. intros l' I. apply In_nth_error in I as (i & Hi).
    destruct (nth_error ls i) as [l|] eqn:E.
    - pose proof (eq_trans (eq_sym (N i l E)) Hi) as Q; inversion Q; subst l'; clear Q. destruct (F l (nth_error_In _ _ E)) as [C Lg].
      now apply carries_cut.
    - exfalso. apply nth_error_None in E. apply nth_error_lt in Hi. unfold str in *. lia.
  Qed.

  Lemma numbered_same wo start ls out :  numbered wo start ls out ->
    Forall (fun l => (6 * w_width wo + 9 <= length l)%nat) ls -> Forall2 (same_columns (w_width wo)) ls out.
  Proof.
    intros [L N] F. apply Forall2_nth_iff; [now symmetry|]. intros i a b Ha Hb. pose proof (eq_trans (eq_sym (N i a Ha)) Hb) as Q; clear Hb; rename Q into Hb.
    assert (X : forall u v : str, Some u = Some v -> u = v) by congruence. apply X in Hb. rewrite <- Hb. unfold same_columns. rewrite Forall_forall in F. specialize (F a (nth_error_In _ _ Ha)).
    rewrite firstn_app, firstn_firstn, Nat.min_id, firstn_length.
    replace (6 * w_width wo + 9 - Nat.min (6 * w_width wo + 9) (length a))%nat with 0%nat by lia. cbn [firstn]. apply app_nil_r.
  Qed.

Section Verbatim.
  Context {D : Type}.
  Variable rr : Z -> Z -> D -> result (list str * ctrl).
  Variables (ro : ropts) (wo : wopts) (zab : bool).
  Hypothesis W : field_width wo.
  Hypothesis Rw : r_width ro = w_width wo.

  Lemma write_end_total c ns : exists l, write_end wo zab c ns = Ok l.
  Proof. destruct (zerostr_ok wo zab W) as (a & b & E & _). unfold write_end. rewrite E. cbn [bind]. eauto. Qed.

  Lemma write_mts_total mf : forall mts cur,
    (forall mt x, In (mt, x) mts -> exists r, write_section rr ro wo zab mf mt x = Ok r) ->
    exists r, write_mts rr ro wo zab None None mf mts cur = Ok r.
  Proof.
    induction mts as [|[mt x] mts IH]; intros cur H; cbn [write_mts should_skip_section]; [eauto|].
    destruct (H mt x) as ([ls c] & E); [now left|]. rewrite E. cbn [bind].
    destruct (IH (Some c)) as ([l2 c2] & E2); [intros; apply H; now right|]. rewrite E2. cbn [bind]. eauto.
  Qed.

  Lemma write_mfs_total : forall mfs,
    (forall mf mts mt x, In (mf, mts) mfs -> In (mt, x) mts -> exists r, write_section rr ro wo zab mf mt x = Ok r) ->
    exists r, write_mfs rr ro wo zab None None mfs = Ok r.
  Proof.
    induction mfs as [|[mf mts] mfs IH]; intros H; cbn [write_mfs]; [eauto|].
    destruct (write_mts_total mf (zsort mts) None) as ([ls cur] & E).
    { intros mt x I. apply (H mf mts); [now left|]. now apply zsort_in. }
    rewrite E. cbn [bind]. destruct IH as (r & E2); [intros; eapply H; eauto; now right|]. rewrite E2.
    destruct cur as [c|]; [destruct (mf =? 0)|]; cbn [bind]; eauto.
    unfold write_fend. destruct (write_end_total {| MAT := MAT c; MF := 0; MT := 0 |} $"    0") as (l & ->). cbn [bind]. eauto.
  Qed.

  Lemma raw_total mf mt ls mat mt' : ls <> [] ->
    Forall (fun l => carries (w_width wo) l mat mf mt' /\ (6 * w_width wo + 9 <= length l)%nat) ls ->
    exists r, write_section rr ro wo zab mf mt (Raw ls) = Ok r.
  Proof.
    intros Ne F. unfold write_section. destruct ls as [|l0 r]; [contradiction|].
    assert (C0 : carries (w_width wo) l0 mat mf mt') by (inversion F; tauto).
    apply (ctrl_ropts_carries wo l0 (mkctrl mat mf mt')) in C0.
    destruct (add_linenumbers_ok wo l0 r _ C0) as (out & E). rewrite E. cbn [bind].
    destruct (add_linenumbers_spec wo _ _ E) as (l0' & c & _ & _ & Nu).
    pose proof (numbered_carries _ _ _ _ _ _ _ Nu F) as Fo.
    assert (Lo : carries (w_width wo) (last out []) mat mf mt').
    { destruct Nu as [Ln _]. destruct (exists_last (l := out)) as (pre & z & ->); [intros ->; discriminate|].
      rewrite last_last. apply Forall_app in Fo as [_ Fo]. now inversion Fo. }
    apply (ro_carries ro wo Rw (last out []) (mkctrl mat mf mt')) in Lo. rewrite Lo. cbn [bind].
    destruct (mf =? 0); [eauto|]. unfold write_send. match goal with |- context [write_end wo zab ?c ?n] => destruct (write_end_total c n) as (l & ->) end.
    cbn [bind]. eauto.
  Qed.
End Verbatim.

Lemma pick_none {A B} (key : A -> Z) (g : A -> list B) k l : ~ In k (map key l) ->
  concat (map (fun x => if key x =? k then g x else []) l) = [].
Proof.
  induction l as [|x l IH]; cbn; auto. intros N. destruct (Z.eqb_spec (key x) k); [tauto|]. apply IH. tauto.
Qed.
Lemma ascending_nodup l : ascending l -> NoDup l.
Proof.
  induction 1 as [|x l S IH F]; constructor; auto. intros I. rewrite Forall_forall in F. specialize (F x I). lia.
Qed.
Lemma pick_one {A B} (key : A -> Z) (g : A -> list B) x l : ascending (map key l) -> In x l ->
  concat (map (fun y => if key y =? key x then g y else []) l) = g x.
Proof.
  intros As. apply ascending_nodup in As. induction l as [|y l IH]; cbn; [intros []|].
  inversion As as [|? ? N As']; subst. intros [->|I].
  - rewrite Z.eqb_refl, pick_none by exact N. apply app_nil_r.
  - destruct (Z.eqb_spec (key y) (key x)) as [E|]; [exfalso; apply N; rewrite E; now apply in_map|]. cbn. auto.
Qed.

Lemma raw_holds {D} (d : mfdic (list str)) mf mt (x : section D) :
  holds (raw_dict d) mf mt x <-> exists ls, x = Raw ls /\ holds d mf mt ls.
Proof.
  unfold holds, raw_dict. split.
  - intros (sub & I & J). apply in_map_iff in I as ([mf' sub'] & E & I). inversion E; subst. clear E. cbn in *.
    apply in_map_iff in J as ([mt' ls] & E & J). inversion E; subst. exists ls. split; auto. exists sub'. auto.
  - intros (ls & -> & sub & I & J). exists (map (fun s => (fst s, Raw (snd s))) sub). split.
    + apply in_map_iff. exists (mf, sub). auto.
    + apply in_map_iff. exists (mt, ls). auto.
Qed.
Lemma raw_is_dict2 {D} (d : mfdic (list str)) : is_dict2 d -> is_dict2 (raw_dict (D := D) d).
Proof.
  intros [H1 H2]. split.
  - unfold is_dict, raw_dict. rewrite map_map. exact H1.
  - intros mf sub I. apply in_map_iff in I as ([mf' sub'] & E & I). inversion E; subst.
    unfold is_dict. rewrite map_map. exact (H2 _ _ I).
Qed.
Lemma holds_fun {A} (d : mfdic A) mf mt v v' : is_dict2 d -> holds d mf mt v -> holds d mf mt v' -> v = v'.
Proof. intros H A1 A2. apply (holds_lookup d mf mt v H) in A1. apply (holds_lookup d mf mt v' H) in A2. congruence. Qed.

Section VerbatimTape.
  Context {D : Type}.
  Variable rr : Z -> Z -> D -> result (list str * ctrl).
  Variables (ro : ropts) (wo : wopts) (zab : bool).
  Hypothesis W : field_width wo.
  Hypothesis Rw : r_width ro = w_width wo.
  Hypothesis Rf : forall mf mt d ls c, rr mf mt d = Ok (ls, c) -> ctrl_fits c.
  Variables (mat : Z) (d : mfdic (list str)).
  Hypothesis V : verbatim (w_width wo) mat d.

  Lemma verbatim_written : exists lines, write_tape rr ro wo zab None None (raw_dict d) = Ok lines.
  Proof.
    destruct V as ((Dd & Ds) & Mz & Sub & (h & hm & Hh & Ch & Lh & _) & H0 & _ & Vs).
    unfold write_tape.
    destruct (write_mfs_total rr ro wo zab W (zsort (raw_dict d))) as (ls & E).
    - intros mf mts mt x I J. apply (proj1 (zsort_in _ _)) in I.
      assert (Hx : holds (raw_dict d) mf mt x) by (exists mts; split; [exact I|exact J]).
      apply raw_holds in Hx as (rl & -> & Hx).
      destruct (Z.eq_dec mf 0) as [->|Nz].
      + assert (mt = 0) by (eapply H0; eauto). subst mt.
        assert (rl = [h]) as -> by (apply (holds_fun d 0 0); auto; split; auto).
        apply (raw_total rr ro wo zab W Rw 0 0 [h] hm 0); [discriminate|constructor; [split; [exact Ch|exact Lh]|constructor]].
      + destruct (Vs mf mt rl Nz Hx) as (_ & Ne & F). apply (raw_total rr ro wo zab W Rw mf mt rl mat mt); auto.
    - rewrite E. cbn [bind]. unfold write_mend, write_tend.
      match goal with |- context [write_end wo zab ?c ?n] => destruct (write_end_total wo zab W c n) as (l & ->) end.
      cbn [bind].
      match goal with |- context [write_end wo zab ?c ?n] => destruct (write_end_total wo zab W c n) as (l' & ->) end.
      cbn [bind]. eauto.
  Qed.

  Lemma verbatim_reread lines : strict ro -> write_tape rr ro wo zab None None (raw_dict d) = Ok lines ->
    exists d', split_sections ro lines = Ok d' /\ is_dict2 d' /\
      (forall mf mt ls, holds d mf mt ls -> exists ls', holds d' mf mt ls' /\ Forall2 (same_columns (w_width wo)) ls ls') /\
      (forall mf mt ls', holds d' mf mt ls' -> exists ls, holds d mf mt ls /\ Forall2 (same_columns (w_width wo)) ls ls').
  Proof.
    intros St H. pose proof V as ((Dd & Ds) & Mz & Sub & (h & hm & Hh & Ch & Lh & Nb) & H0 & (mf1 & mt1 & ls1 & Nz1 & Hs1) & Vs).
    destruct (write_skeleton rr ro wo zab None None W Rw Rf (raw_dict d) lines) as (t & -> & Sk); auto.
    { apply raw_is_dict2. now split. }
    { intros mf sub I. apply in_map_iff in I as ([mf' sub'] & E & I). inversion E; subst. apply (Sub _ _ I). }
    destruct Sk as (Ah & Kh & Oh & Af & Kf & Of & Me & Te).
    (* the head *)
    assert (exists h', wr_head t = [(0, [h'])] /\ same_columns (w_width wo) h h' /\ carries (w_width wo) h' hm 0 0 /\ ~ blank h') as (h' & Eh & Sh & Ch' & Nb').
    { assert (K0 : forall mt, In mt (map fst (wr_head t)) -> mt = 0).
      { intros mt I. apply Kh in I as (_ & x & Hx). apply raw_holds in Hx as (ls & _ & Hx). eapply H0; eauto. }
      assert (I0 : In 0 (map fst (wr_head t))).
      { apply Kh. split; [exact I|]. exists (Raw [h]). apply raw_holds. eauto. }
      destruct (wr_head t) as [|[m out] rest]; [destruct I0|].
      assert (m = 0) by (apply K0; now left). subst m.
      destruct rest as [|[m2 o2] rest].
      2:{ exfalso. assert (m2 = 0) by (apply K0; right; now left). subst m2. inversion Ah as [|? ? ? F1]; subst.
          inversion F1; subst. lia. }
      destruct (Oh 0 out) as (x & Hx & st & O); [now left|]. apply raw_holds in Hx as (ls & -> & Hx).
      assert (ls = [h]) as -> by (apply (holds_fun d 0 0); auto; split; auto). destruct O as [Nu _].
      pose proof (numbered_same wo _ _ _ Nu) as F2. specialize (F2 ltac:(repeat constructor; auto)).
      pose proof (numbered_carries wo _ _ _ hm 0 0 Nu) as F3.
      specialize (F3 ltac:(constructor; [split; auto|constructor])).
      inversion F2 as [|? h' ? ? SC F2']; subst. inversion F2'; subst. inversion F3; subst.
      exists h'. do 3 (split; [auto|]). intros B. apply Nb. rewrite <- SC.
      unfold blank in *. rewrite Forall_forall in *. intros a Ia. apply B. eapply in_firstn; eauto. }
    (* every section *)
    assert (Sc : forall f s, In f (wr_files t) -> In s (f_secs f) -> exists ls,
        holds d (f_mf f) (s_mt s) ls /\ Forall2 (same_columns (w_width wo)) ls (s_body s) /\ section_ok ro mat (f_mf f) s).
    { intros f s If Is.
      assert (Nz : f_mf f <> 0).
      { inversion Af as [|? ? _ A2]; subst. rewrite Forall_forall in A2. assert (0 < f_mf f) by (apply A2; now apply in_map). lia. }
      rewrite Forall_forall in Of. destruct (Of f If) as (_ & _ & Hsec & _).
      destruct (Hsec s Is) as (x & c & Hx & st & O). apply raw_holds in Hx as (ls & -> & Hx).
      destruct (Vs _ _ _ Nz Hx) as (Nt & Ne & F). destruct O as (Nu & _ & La & (Er & _ & _)).
      pose proof (numbered_same wo _ _ _ Nu) as F2.
      specialize (F2 ltac:(rewrite Forall_forall in *; intros; now apply F)).
      pose proof (numbered_carries wo _ _ _ _ _ _ Nu F) as F3.
      assert (Nb2 : s_body s <> []). { intros E. rewrite E in F2. inversion F2; subst. now apply Ne. }
      exists ls. do 2 (split; [auto|]). split; [auto|]. split; [auto|]. rewrite Rw. split; [auto|].
      destruct (exists_last Nb2) as (pre & z & E). rewrite E, last_last in La. rewrite E in F3.
      apply Forall_app in F3 as [_ F3]. inversion F3 as [|? ? C3 _]; subst.
      destruct (carries_fun _ _ _ _ _ _ _ _ La C3) as (E1 & E2 & _). rewrite E1, E2 in Er. exact Er. }
    assert (Fo : forall f, In f (wr_files t) -> file_ok ro mat f).
    { intros f If. rewrite Forall_forall in Of. destruct (Of f If) as (Ne & _ & _ & (pre & s & x & c & Ef & Hx & (st & O) & (Er & _ & _))).
      assert (Is : In s (f_secs f)) by (rewrite Ef; apply in_or_app; right; now left).
      split.
      { inversion Af as [|? ? _ A2]; subst. rewrite Forall_forall in A2. assert (0 < f_mf f) by (apply A2; now apply in_map). lia. }
      split; [exact Ne|]. split.
      { apply Forall_forall. intros s' Is'. destruct (Sc f s' If Is') as (_ & _ & _ & X). exact X. }
      apply raw_holds in Hx as (ls & -> & Hx). destruct O as (_ & _ & La & _).
      destruct (Sc f s If Is) as (_ & _ & _ & (_ & Nb2 & F3 & _)). rewrite Rw in F3.
      destruct (exists_last Nb2) as (pre' & z & E). rewrite E, last_last in La. rewrite E in F3.
      apply Forall_app in F3 as [_ F3]. inversion F3 as [|? ? C3 _]; subst.
      destruct (carries_fun _ _ _ _ _ _ _ _ La C3) as (E1 & _ & _). rewrite E1 in Er. exact Er. }
    set (tp := {| t_head := h'; t_mats := [{| m_mat := mat; m_files := wr_files t; m_mend := wr_mend t |}];
                  t_tend := wr_tend t; t_rest := [] |}).
    assert (To : tape_ok ro tp).
    { unfold tape_ok. cbn [tp t_head t_mats t_tend t_rest]. split; [auto|]. split; [exists hm; now rewrite Rw|].
      split; [|split; [apply Te|constructor]]. constructor; [|constructor].
      split; [exact Mz|]. split; [|split; [apply Forall_forall; exact Fo|apply Me]].
      cbn [m_files]. intros E. destruct (proj2 (Kf mf1 mt1 Nz1)) as (f & s & If & _).
      - split; [exact I|]. exists (Raw ls1). apply raw_holds. eauto.
      - rewrite E in If. destruct If. }
    assert (Tl : written_lines t = tape_lines tp).
    { unfold written_lines, tape_lines, tp, material_lines. cbn [t_head t_mats t_tend t_rest map concat m_files m_mend].
      rewrite Eh. cbn [map snd concat]. rewrite app_nil_r. cbn [app]. rewrite <- !app_assoc. reflexivity. }
    exists (tape_dict tp). rewrite Tl. split; [apply split_tape; auto; apply St|].
    destruct (tape_dict_spec ro tp To) as [[G1 G2] L].
    split; [exact G1|].
    assert (Ts : forall mf mt, mf <> 0 -> tape_section tp mf mt =
      concat (map (fun f => if f_mf f =? mf then
        concat (map (fun s => if s_mt s =? mt then s_body s else []) (f_secs f)) else []) (wr_files t))).
    { intros mf mt Nz. unfold tape_section. destruct (Z.eqb_spec mf 0); [contradiction|]. cbn [andb tp t_mats map concat m_files].
      apply app_nil_r. }
    assert (T1 : forall f s, In f (wr_files t) -> In s (f_secs f) -> tape_section tp (f_mf f) (s_mt s) = s_body s).
    { intros f s If Is. destruct (Fo f If) as (Nz & _). rewrite Ts by exact Nz.
      rewrite (pick_one f_mf (fun f => concat (map (fun s' => if s_mt s' =? s_mt s then s_body s' else []) (f_secs f))) f).
      - rewrite Forall_forall in Of. destruct (Of f If) as (_ & As & _). exact (pick_one s_mt s_body s (f_secs f) As Is).
      - inversion Af; subst; assumption.
      - exact If. }
    assert (T0 : tape_section tp 0 0 = [h']) by reflexivity.
    assert (Hd : forall mf mt ls, holds (tape_dict tp) mf mt ls <-> (ls = tape_section tp mf mt /\ ls <> [])).
    { intros mf mt ls. rewrite holds_lookup by exact G1. rewrite <- L. unfold lines_of.
      destruct (lookup2 (tape_dict tp) mf mt) as [x|] eqn:E; split.
      - intros X; inversion X; subst. split; auto. eapply G2; eauto.
      - intros [-> _]; reflexivity.
      - discriminate.
      - intros [-> X]; contradiction. }
    split.
    - intros mf mt ls Hx. destruct (Z.eq_dec mf 0) as [->|Nz].
      + assert (mt = 0) by (eapply H0; eauto). subst mt.
        assert (ls = [h]) as -> by (apply (holds_fun d 0 0); auto; split; auto).
        exists [h']. split; [apply Hd; rewrite T0; split; [reflexivity|discriminate]|]. repeat constructor. exact Sh.
      + destruct (proj2 (Kf mf mt Nz)) as (f & s & If & Ef & Is & Es).
        { split; [exact I|]. exists (Raw ls). apply raw_holds. eauto. }
        subst mf mt. destruct (Sc f s If Is) as (ls' & Hx' & F2 & (_ & Nb2 & _)).
        assert (ls = ls') as -> by (apply (holds_fun d (f_mf f) (s_mt s)); auto; split; auto).
        exists (s_body s). split; [|exact F2]. apply Hd. rewrite T1 by auto. split; auto.
    - intros mf mt ls' Hx. apply Hd in Hx as [E Ne]. destruct (Z.eq_dec mf 0) as [->|Nz].
      + destruct (Z.eq_dec mt 0) as [->|Nt].
        * rewrite T0 in E. subst ls'. exists [h]. split; [exact Hh|]. repeat constructor. exact Sh.
        * exfalso. apply Ne. rewrite E. unfold tape_section. destruct (Z.eqb_spec mt 0); [contradiction|].
          cbn [andb Z.eqb]. destruct To as (_ & _ & F & _). exact (pick_zero ro mt _ F).
      + destruct (in_dec Z.eq_dec mf (map f_mf (wr_files t))) as [If|Nf].
        2:{ exfalso. apply Ne. rewrite E, Ts by exact Nz. apply (pick_none f_mf); exact Nf. }
        apply in_map_iff in If as (f & Ef & If).
        destruct (in_dec Z.eq_dec mt (map s_mt (f_secs f))) as [Is|Ns].
        * apply in_map_iff in Is as (s & Es & Is). subst mf mt. rewrite T1 in E by auto. subst ls'.
          destruct (Sc f s If Is) as (ls & Hx & F2 & _). eauto.
        * exfalso. apply Ne. rewrite E, Ts by exact Nz. subst mf.
          rewrite (pick_one f_mf (fun f => concat (map (fun s' => if s_mt s' =? mt then s_body s' else []) (f_secs f))) f).
          -- apply (pick_none s_mt); exact Ns.
          -- inversion Af; subst; assumption.
          -- exact If.
  Qed.
End VerbatimTape.
