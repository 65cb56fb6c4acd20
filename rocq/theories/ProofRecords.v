(** Round trips of the record types. *)
From Coq Require Import Ascii String ZArith QArith Qabs Lqa Bool Lia List.
From Coq Require Import Floats.SpecFloat.
From Verif Require Import PyBase ProofPyBase PyFloat ProofFloat ModelFortran ModelRecords
  SpecFields ProofFields SpecFloat ProofFloatText SpecLibm.
Import ListNotations.
Open Scope Z_scope.

(** ** Lists *)

Lemma Forall2_length {A B} {R : A -> B -> Prop} {l l'} : Forall2 R l l' -> length l = length l'.
Proof. induction 1; cbn; congruence. Qed.

Lemma mapM_ok {A B} (f : A -> result B) (P : A -> B -> Prop) l l' :
  Forall2 (fun a b => f a = Ok b) l l' <-> mapM f l = Ok l'.
Proof.
  revert l'. induction l as [|a l IH]; intros l'; cbn.
  - split; intros H; [inversion H; reflexivity|inversion H; constructor].
  - split; intros H.
    + inversion H as [|? b ? l2 E1 E2]; subst. rewrite E1. cbn. apply IH in E2. now rewrite E2.
    + destruct (f a) as [b|] eqn:E; [|discriminate]. cbn in H.
      destruct (mapM f l) as [l2|] eqn:E2; [|discriminate]. cbn in H. inversion H; subst.
      constructor; auto. now apply IH.
Qed.

Lemma mapM_Forall2 {A B} (f : A -> result B) l l' :
  mapM f l = Ok l' -> Forall2 (fun a b => f a = Ok b) l l'.
Proof. intros H. now apply (mapM_ok f (fun _ _ => True)). Qed.
Lemma Forall2_mapM {A B} (f : A -> result B) l l' :
  Forall2 (fun a b => f a = Ok b) l l' -> mapM f l = Ok l'.
Proof. intros H. now apply (mapM_ok f (fun _ _ => True)). Qed.

Lemma mapM_length {A B} (f : A -> result B) l l' : mapM f l = Ok l' -> length l' = length l.
Proof. intros H. apply mapM_Forall2 in H. symmetry. eapply Forall2_length; eauto. Qed.

Lemma mapM_app {A B} (f : A -> result B) l1 l2 :
  mapM f (l1 ++ l2) = do a <- mapM f l1; do b <- mapM f l2; Ok (a ++ b).
Proof.
  induction l1 as [|x l1 IH]; cbn.
  - destruct (mapM f l2); reflexivity.
  - destruct (f x); cbn; auto. rewrite IH. destruct (mapM f l1); cbn; auto.
    destruct (mapM f l2); reflexivity.
Qed.

Lemma Forall2_nth {A B} (R : A -> B -> Prop) l l' i a :
  Forall2 R l l' -> nth_error l i = Some a -> exists b, nth_error l' i = Some b /\ R a b.
Proof.
  intros H; revert i; induction H as [|x y l l' Hxy H IH]; intros [|i] E; cbn in *; try discriminate.
  - inversion E; subst. eauto.
  - eauto.
Qed.

Lemma Forall2_nth_iff {A B} (R : A -> B -> Prop) l l' :
  length l = length l' ->
  (forall i a b, nth_error l i = Some a -> nth_error l' i = Some b -> R a b) -> Forall2 R l l'.
Proof.
  revert l'; induction l as [|x l IH]; intros [|y l'] L H; cbn in *; try discriminate; constructor.
  - apply (H 0%nat); reflexivity.
  - apply IH; [congruence|]. intros i a b. apply (H (S i)).
Qed.

(** ** Fields of a line *)

Definition widths (w : nat) (fs : list str) : Prop := Forall (fun s => length s = w) fs.

Lemma length_concat_widths w fs : widths w fs -> length (concat fs) = (length fs * w)%nat.
Proof.
  induction 1 as [|f fs E H IH]; [reflexivity|]. cbn. rewrite app_length, E, IH. reflexivity.
Qed.

Lemma slice_concat w fs i f suf : widths w fs -> nth_error fs i = Some f ->
  slice (i * w) (i * w + w) (concat fs ++ suf) = f.
Proof.
  intros H E. destruct (nth_error_split fs i E) as (a & b & -> & L).
  apply Forall_app in H as [Ha Hb]. inversion Hb as [|? ? Lf Hb']; subst.
  rewrite concat_app. cbn [concat]. rewrite <- !app_assoc.
  pose proof (length_concat_widths _ a Ha) as LC.
  apply slice_at; rewrite LC; reflexivity.
Qed.

Lemma field_concat w fs i f suf : widths w fs -> nth_error fs i = Some f ->
  field w i (concat fs ++ suf) = f.
Proof.
  intros H E. unfold field. replace (S i * w)%nat with (i * w + w)%nat by (cbn; lia).
  now apply slice_concat.
Qed.

(** ** Numbers in a line *)

Lemma read_fort_floats_concat ro fs ws suf :
  widths (r_width ro) fs -> Forall2 (fun s w => read_fort_float ro s = Ok w) fs ws ->
  read_fort_floats ro (concat fs ++ suf) (length fs) = Ok ws.
Proof.
  intros W H. unfold read_fort_floats. apply Forall2_mapM.
  apply Forall2_nth_iff; [rewrite seq_length; now apply Forall2_length in H|].
  intros i a b Ha Hb.
  assert (Hi : (i < length fs)%nat).
  { apply Forall2_length in H. rewrite H. apply nth_error_Some. congruence. }
  assert (a = i).
  { rewrite (nth_error_nth' _ 0%nat) in Ha by (rewrite seq_length; auto).
    inversion Ha. rewrite seq_nth by auto. reflexivity. }
  subst a. destruct (nth_error fs i) as [f|] eqn:Ef; [|apply nth_error_None in Ef; lia].
  destruct (Forall2_nth _ _ _ _ _ H Ef) as (b' & Eb & R).
  rewrite Hb in Eb. inversion Eb; subst. now rewrite (slice_concat _ fs i f suf).
Qed.

(** reading only the first few of the fields *)
Lemma firstn_concat_widths w fs k : widths w fs -> (k <= length fs)%nat ->
  concat fs = concat (firstn k fs) ++ concat (skipn k fs).
Proof. intros _ _. rewrite <- concat_app, firstn_skipn. reflexivity. Qed.

(** ** Chunks *)

Lemma chunks6_fuel {A} (vals : list A) : forall f, (length vals <= f)%nat ->
  chunks6 f vals = chunks6 (length vals) vals.
Proof.
  induction vals as [vals IH] using (induction_ltof1 _ (@length A)). unfold ltof in IH.
  intros f Hf. destruct f as [|f].
  - destruct vals; [reflexivity|cbn in Hf; lia].
  - destruct vals as [|v vals]; [reflexivity|].
    change (length (v :: vals)) with (S (length vals)) in *.
    cbn [chunks6]. f_equal.
    assert (L : (length (skipn 6 (v :: vals)) <= length vals)%nat) by (rewrite skipn_length; cbn [length]; lia).
    rewrite (IH (skipn 6 (v :: vals))); [|cbn [length]; lia|lia].
    symmetry. apply IH; cbn [length]; lia.
Qed.

Lemma chunks6_nil {A} : chunks6 0 (@nil A) = [].
Proof. reflexivity. Qed.

Lemma chunks6_cons {A} (vals : list A) : vals <> [] ->
  chunks6 (length vals) vals = firstn 6 vals :: chunks6 (length (skipn 6 vals)) (skipn 6 vals).
Proof.
  intros N. destruct vals as [|v vals]; [contradiction|].
  change (length (v :: vals)) with (S (length vals)) at 1. cbn [chunks6]. f_equal.
  apply chunks6_fuel. rewrite skipn_length. cbn [length]. lia.
Qed.

Lemma lines6_small n : (1 <= n <= 6)%nat -> lines6 n = 1%nat.
Proof.
  intros H. unfold lines6. symmetry. apply (Nat.div_unique (n + 5) 6 1 (n - 1)); lia.
Qed.
Lemma lines6_step n : (6 <= n)%nat -> lines6 n = S (lines6 (n - 6)).
Proof.
  intros H. unfold lines6. replace (n + 5)%nat with ((n - 6 + 5) + 1 * 6)%nat by lia.
  rewrite Nat.div_add by lia. lia.
Qed.

(** induction over the lines of an array *)
Lemma chunk_ind {A} (P : list A -> Prop) :
  P [] ->
  (forall l, l <> [] -> (length l <= 6)%nat -> P l) ->
  (forall l r, length l = 6%nat -> r <> [] -> P r -> P (l ++ r)) ->
  forall l, P l.
Proof.
  intros H0 H1 H2 l.
  induction l as [l IH] using (induction_ltof1 _ (@length A)). unfold ltof in IH.
  destruct (Nat.le_gt_cases (length l) 6) as [L|L].
  - destruct l; [exact H0|]. apply H1; [discriminate|exact L].
  - rewrite <- (firstn_skipn 6 l).
    assert (Ls : (length (skipn 6 l) = length l - 6)%nat) by now rewrite skipn_length.
    apply H2.
    + apply firstn_length_le. lia.
    + intros E. rewrite E in Ls. cbn in Ls. lia.
    + apply IH. lia.
Qed.

Lemma chunks6_small {A} (l : list A) : l <> [] -> (length l <= 6)%nat -> chunks6 (length l) l = [l].
Proof.
  intros N L. rewrite chunks6_cons by auto. rewrite firstn_all2, skipn_all2 by lia. reflexivity.
Qed.
Lemma chunks6_app {A} (l r : list A) : length l = 6%nat ->
  chunks6 (length (l ++ r)) (l ++ r) = l :: chunks6 (length r) r.
Proof.
  intros L. rewrite chunks6_cons by (destruct l; [discriminate|discriminate]).
  rewrite firstn_app, skipn_app, firstn_all2, skipn_all2 by lia.
  rewrite L. cbn [Nat.sub firstn skipn app]. now rewrite app_nil_r.
Qed.

(** ** Arrays of numbers *)

Lemma ljust_last_cons n l r : r <> [] -> ljust_last n (l :: r) = do x <- ljust_last n r; Ok (l :: x).
Proof. intros H. destruct r; [contradiction|reflexivity]. Qed.

(** all lines but the last are full already; the last is padded *)
Definition array_lines (w : nat) (fs : list str) : list str :=
  map (fun ch => ljust (w * 6) (concat ch)) (chunks6 (length fs) fs).

Lemma map_chunks6 {A B} (f : A -> B) (l : list A) :
  chunks6 (length (map f l)) (map f l) = map (map f) (chunks6 (length l) l).
Proof.
  induction l as [|l N L|l r L N IH] using chunk_ind; [reflexivity| |].
  - rewrite (chunks6_small l), (chunks6_small (map f l)); auto.
    + destruct l; [contradiction|discriminate].
    + now rewrite map_length.
  - rewrite map_app, !chunks6_app by (rewrite ?map_length; auto). cbn. now rewrite IH.
Qed.

Lemma ljust_last_chunks w (fs : list str) : widths w fs -> fs <> [] ->
  ljust_last (w * 6) (map (@concat ascii) (chunks6 (length fs) fs)) = Ok (array_lines w fs).
Proof.
  unfold array_lines. induction fs as [|l N L|l r L N IH] using chunk_ind; intros W NN; [contradiction| |].
  - rewrite chunks6_small by auto. reflexivity.
  - apply Forall_app in W as [Wl Wr]. rewrite chunks6_app by auto. cbn [map].
    rewrite ljust_last_cons.
    + rewrite IH by auto. cbn. rewrite (ljust_id (w * 6)); [reflexivity|].
      rewrite (length_concat_widths w l Wl), L. lia.
    + rewrite chunks6_cons by auto. discriminate.
Qed.

Lemma array_lines_length w fs : length (array_lines w fs) = lines6 (length fs).
Proof.
  unfold array_lines. rewrite map_length.
  induction fs as [|l N L|l r L N IH] using chunk_ind; [reflexivity| |].
  - rewrite chunks6_small by auto. cbn. symmetry. apply lines6_small.
    destruct l; [contradiction|cbn in *; lia].
  - rewrite chunks6_app by auto. cbn [length]. rewrite IH, app_length, L.
    rewrite (lines6_step (6 + _)) by lia. f_equal. f_equal. lia.
Qed.

Lemma chunks6_forall {A} (P : A -> Prop) l : Forall P l ->
  Forall (fun ch => Forall P ch /\ (length ch <= 6)%nat) (chunks6 (length l) l).
Proof.
  induction l as [|l N L|l r L N IH] using chunk_ind; intros H; [constructor| |].
  - rewrite chunks6_small by auto. constructor; [split; auto|constructor].
  - apply Forall_app in H as [H1 H2]. rewrite chunks6_app by auto. constructor; [split; auto; lia|auto].
Qed.

Lemma array_lines_full w fs : widths w fs -> full_lines w (array_lines w fs).
Proof.
  intros W. apply chunks6_forall in W. unfold full_lines, array_lines.
  rewrite Forall_map. eapply Forall_impl; [|exact W]. intros ch [Wc L].
  apply length_concat_widths in Wc. rewrite length_ljust_le; [lia|]. rewrite Wc, Nat.mul_comm. apply Nat.mul_le_mono_l, L.
Qed.

Lemma get_line_at ls L ofs i l : at_lines ls L ofs -> nth_error ls i = Some l ->
  exists suf, get_line L (ofs + i) = Ok (l ++ suf).
Proof.
  intros H E. destruct (H i l E) as (suf & E'). exists suf. unfold get_line. now rewrite E'.
Qed.

Lemma at_lines_cons l ls L ofs : at_lines (l :: ls) L ofs ->
  (exists suf, get_line L ofs = Ok (l ++ suf)) /\ at_lines ls L (S ofs).
Proof.
  intros H. split.
  - destruct (H 0%nat l eq_refl) as (suf & E). exists suf. unfold get_line.
    rewrite Nat.add_0_r in E. now rewrite E.
  - intros i x E. destruct (H (S i) x E) as (suf & E'). exists suf. now replace (S ofs + i)%nat with (ofs + S i)%nat by lia.
Qed.

Lemma at_lines_app l1 l2 L ofs : at_lines (l1 ++ l2) L ofs <->
  at_lines l1 L ofs /\ at_lines l2 L (ofs + length l1).
Proof.
  split.
  - intros H. split; intros i x E.
    + apply H. rewrite nth_error_app1; auto. apply nth_error_Some. congruence.
    + destruct (H (length l1 + i)%nat x) as (suf & E').
      { rewrite nth_error_app2 by lia. now replace (length l1 + i - length l1)%nat with i by lia. }
      exists suf. now rewrite Nat.add_assoc in E'.
  - intros [H1 H2] i x E. destruct (Nat.lt_ge_cases i (length l1)) as [Lt|Ge].
    + apply H1. now rewrite nth_error_app1 in E.
    + rewrite nth_error_app2 in E by lia. destruct (H2 _ x E) as (suf & E').
      exists suf. now replace (ofs + i)%nat with (ofs + length l1 + (i - length l1))%nat by lia.
Qed.

(** lines to which columns have been appended *)
Lemma at_lines_map_app ls t L ofs : at_lines (map (fun l : str => l ++ t) ls) L ofs -> at_lines ls L ofs.
Proof.
  intros H i l E. destruct (H i (l ++ t)) as (suf & E').
  { exact (map_nth_error (fun l : str => l ++ t) _ _ E). }
  exists (t ++ suf). now rewrite app_assoc.
Qed.

Lemma read_numbers_array ro fs ws : forall L ofs fuel,
  widths (r_width ro) fs -> Forall2 (fun s w => read_fort_float ro s = Ok w) fs ws ->
  at_lines (array_lines (r_width ro) fs) L ofs -> (length fs <= fuel)%nat ->
  read_numbers_loop ro fuel L (Z.of_nat (length fs)) ofs = Ok (ws, (ofs + lines6 (length fs))%nat).
Proof.
  unfold array_lines. revert ws.
  induction fs as [|l N Le|l r Le N IH] using chunk_ind; intros ws L ofs fuel W H A F.
  - inversion H; subst. change (lines6 (length (@nil str))) with 0%nat. rewrite Nat.add_0_r.
    destruct fuel; reflexivity.
  - rewrite chunks6_small in A by auto. cbn [map] in A.
    apply at_lines_cons in A as [(suf & G) _].
    assert (Ln : (1 <= length l)%nat) by (destruct l; [contradiction|cbn; lia]).
    destruct fuel as [|fuel]; [lia|]. cbn [read_numbers_loop].
    destruct (Z.leb_spec (Z.of_nat (length l)) 0); [lia|].
    rewrite G. cbn [bind].
    replace (Z.to_nat (Z.min 6 (Z.of_nat (length l)))) with (length l) by lia.
    unfold ljust. rewrite <- app_assoc. rewrite (read_fort_floats_concat ro l ws) by auto. cbn [bind].
    assert (read_numbers_loop ro fuel L (Z.of_nat (length l) - 6) (S ofs) = Ok ([], S ofs)) as ->.
    { destruct fuel; [reflexivity|]. cbn [read_numbers_loop].
      destruct (Z.leb_spec (Z.of_nat (length l) - 6) 0); [reflexivity|lia]. }
    cbn [bind]. rewrite app_nil_r, lines6_small by lia. f_equal. f_equal. lia.
  - apply Forall_app in W as [Wl Wr].
    apply Forall2_app_inv_l in H as (w1 & w2 & H1 & H2 & ->).
    rewrite chunks6_app in A by auto. cbn [map] in A. apply at_lines_cons in A as [(suf & G) A].
    rewrite app_length in *. destruct fuel as [|fuel]; [lia|]. cbn [read_numbers_loop].
    destruct (Z.leb_spec (Z.of_nat (length l + length r)) 0); [lia|].
    rewrite G. cbn [bind].
    replace (Z.to_nat (Z.min 6 (Z.of_nat (length l + length r)))) with (length l) by lia.
    unfold ljust. rewrite <- app_assoc. rewrite (read_fort_floats_concat ro l w1) by auto. cbn [bind].
    replace (Z.of_nat (length l + length r) - 6) with (Z.of_nat (length r)) by lia.
    rewrite (IH w2 L (S ofs) fuel) by (auto; lia). cbn [bind]. f_equal. f_equal.
    rewrite (lines6_step (length l + length r)) by lia.
    replace (length l + length r - 6)%nat with (length r) by lia. lia.
Qed.

(** ** Integers read through the float reader *)

Lemma str_of_nonneg_value n : 0 <= n -> digits_value (str_of_nonneg n) = n.
Proof.
  intros H. pose proof (str_of_nonneg_val n H) as V.
  rewrite digits_val_acc_fold in V by apply str_of_nonneg_digits.
  unfold digits_value. congruence.
Qed.

Lemma int_fortran_text n : fortran_text (str_of_Z n) (n <? 0) (Z.abs n) 0.
Proof.
  exists (if n <? 0 then $"-" else []), (str_of_nonneg (Z.abs n)), [], [], false, [], 0.
  rewrite !app_nil_r. split; [|split; [|split; [|split; [|split; [|split; [|split; [|split]]]]]]].
  - unfold str_of_Z. destruct (Z.ltb_spec n 0).
    + rewrite Z.abs_neq by lia. reflexivity.
    + rewrite Z.abs_eq by lia. reflexivity.
  - destruct (n <? 0); auto.
  - apply digit_string_all, str_of_nonneg_digits.
  - intros c [].
  - apply str_of_nonneg_nonnil.
  - left; auto.
  - constructor.
  - now rewrite str_of_nonneg_value by lia.
  - reflexivity.
Qed.

Lemma remove_space_rjust w s : fstr s -> remove_chr " "%char (rjust w s) = s.
Proof.
  intros H. unfold rjust, remove_chr. rewrite filter_app.
  assert (filter (fun c => negb (chr_eqb c " "%char)) (spaces (w - length s)) = []) as ->.
  { induction (w - length s)%nat as [|k IH]; [reflexivity|]. cbn. exact IH. }
  now apply remove_space_fstr.
Qed.

(** a right-justified number is read whether or not spaces are removed *)
Lemma read_rjust ro w t neg m e : (length t <= w)%nat -> (w <= r_width ro)%nat ->
  fortran_text t neg m e ->
  let f := round64 neg (dec_num m e) (dec_den e) in
  read_fort_float ro (rjust w t) = Ok (if r_preserve ro then NEndf f (rjust w t) else NFlt f).
Proof.
  intros Lw Lr T f. apply (read_fortran ro (rjust w t) t); auto.
  - rewrite length_rjust. lia.
  - destruct (r_spaces ro).
    + exists [], []. rewrite app_nil_r. cbn [app].
      rewrite remove_space_rjust by (eapply fortran_text_fstr; eauto). repeat split; constructor.
    + exists (spaces (w - length t)), []. rewrite app_nil_r. repeat split; auto using spaces_ws. constructor.
Qed.

Lemma val_iz_trunc f z : is_finite f = true -> (val f == inject_Z z)%Q ->
  Z.quot (sf_num f) (sf_den f) = z /\ sf_num f = z * sf_den f.
Proof.
  intros F V. pose proof (sf_den_pos f) as P.
  assert (E : (frac (sf_num f) (sf_den f) == frac z 1)%Q).
  { unfold val in V. rewrite V. unfold frac. change (inject_Z 1) with 1%Q. field. }
  apply (proj1 (frac_eq_cross _ _ _ _ P Z.lt_0_1)) in E. rewrite Z.mul_1_r in E.
  split; auto. rewrite E. apply Z.quot_mul. lia.
Qed.

Lemma read_int_as_float ro z : in_field (r_width ro) z -> (1 <= r_width ro)%nat -> Z.abs z <= 2 ^ 53 ->
  exists v, read_fort_float ro (int_field (r_width ro) z) = Ok v /\ to_int1 v = Ok (NInt z).
Proof.
  intros Hf Hw Hz. apply in_field_fits in Hf; auto.
  pose proof (read_rjust ro (r_width ro) (str_of_Z z) (z <? 0) (Z.abs z) 0 Hf ltac:(lia) (int_fortran_text z)) as R.
  cbv zeta in R. fold (int_field (r_width ro) z) in R.
  assert (dec_num (Z.abs z) 0 = Z.abs z) as E1 by (unfold dec_num; cbn; lia).
  rewrite E1 in R. change (dec_den 0) with 1 in R.
  set (f := round64 (z <? 0) (Z.abs z) 1) in *.
  destruct (round64_int (z <? 0) (Z.abs z) ltac:(lia)) as [Fin V]. fold f in Fin, V.
  assert (V' : (val f == inject_Z z)%Q).
  { rewrite V. unfold sgnQ. destruct (Z.ltb_spec z 0).
    - rewrite Z.abs_neq, inject_Z_opp by lia. ring.
    - rewrite Z.abs_eq by lia. ring. }
  destruct (val_iz_trunc f z Fin V') as [Q _].
  eexists. split; [exact R|].
  assert (T : forall v, num_trunc v = z -> num_finite v = true -> to_int1 v = Ok (NInt z)).
  { intros v Tv Fv. unfold to_int1. rewrite Tv. destruct v as [|g|g]; auto; destruct g; auto; discriminate. }
  destruct (r_preserve ro); apply T; auto.
Qed.

(** ** CONT *)

Lemma int_valued_slot wo v z : int_valued wo v z -> int_slot wo v = Ok z.
Proof.
  intros [->|(S & F & E)]; [reflexivity|].
  unfold int_slot. destruct v as [z'|f|f o].
  - cbn in E. rewrite Z.mul_1_r in E. now subst.
  - assert (Z.quot (num_num (NFlt f)) (num_den (NFlt f)) = z) as Q.
    { rewrite E. apply Z.quot_mul. cbn. pose proof (sf_den_pos f). lia. }
    unfold num_trunc. rewrite Q, E, Z.eqb_refl, S. cbn. destruct f; auto; discriminate.
  - assert (Z.quot (num_num (NEndf f o)) (num_den (NEndf f o)) = z) as Q.
    { rewrite E. apply Z.quot_mul. cbn. pose proof (sf_den_pos f). lia. }
    unfold num_trunc. rewrite Q, E, Z.eqb_refl, S. cbn. destruct f; auto; discriminate.
Qed.

Lemma int_slot_valued wo v z : int_slot wo v = Ok z -> int_valued wo v z.
Proof.
  unfold int_slot, int_valued. destruct v as [z'|f|f o].
  - intros H; inversion H; auto.
  - intros H. right.
    destruct f as [s|s| |s m e]; try discriminate;
    destruct (num_num _ =? num_trunc _ * num_den _) eqn:E; cbn [negb orb] in H; try discriminate;
    destruct (w_strict wo); try discriminate; inversion H; subst; apply Z.eqb_eq in E; auto.
  - intros H. right.
    destruct f as [s|s| |s m e]; try discriminate;
    destruct (num_num _ =? num_trunc _ * num_den _) eqn:E; cbn [negb orb] in H; try discriminate;
    destruct (w_strict wo); try discriminate; inversion H; subst; apply Z.eqb_eq in E; auto.
Qed.

Lemma cont_line ro wo r r' c : same_width wo ro -> cont_rt wo ro r r' -> ctrl_fits c ->
  exists l, write_cont wo r c = Ok [l] /\ length l = (6 * w_width wo + 9)%nat /\
    forall suf L ofs, get_line L ofs = Ok (l ++ suf) -> read_cont ro L ofs = Ok (r', c, S ofs).
Proof.
  intros [SW W1] ((s1 & A1 & B1 & D1) & (s2 & A2 & B2 & D2) & (l1 & E1 & F1 & G1) & (l2 & E2 & F2 & G2)
    & (n1 & E3 & F3 & G3) & (n2 & E4 & F4 & G4)) CF.
  apply in_field_fits in F1, F2, F3, F4; auto.
  unfold write_cont.
  rewrite (int_valued_slot _ _ _ E1), (int_valued_slot _ _ _ E2), (int_valued_slot _ _ _ E3), (int_valued_slot _ _ _ E4).
  cbn [bind]. rewrite A1, A2. cbn [bind].
  set (w := w_width wo) in *.
  set (fs := [s1; s2; int_field w l1; int_field w l2; int_field w n1; int_field w n2]).
  assert (W : widths w fs) by (repeat constructor; auto using length_int_field).
  assert (EL : s1 ++ s2 ++ int_field w l1 ++ int_field w l2 ++ int_field w n1 ++ int_field w n2 ++ write_ctrl c
               = concat fs ++ write_ctrl c) by (cbn; rewrite <- !app_assoc; reflexivity).
  rewrite EL. exists (concat fs ++ write_ctrl c). split; [reflexivity|]. split.
  { rewrite app_length, (length_concat_widths w fs W), length_write_ctrl by auto. cbn. lia. }
  intros suf L ofs G. unfold read_cont. rewrite G. cbn [bind].
  rewrite <- app_assoc. rewrite SW. fold w.
  rewrite (field_concat w fs 0 s1), (field_concat w fs 1 s2), (field_concat w fs 2 (int_field w l1)),
    (field_concat w fs 3 (int_field w l2)), (field_concat w fs 4 (int_field w n1)),
    (field_concat w fs 5 (int_field w n2)) by (auto; reflexivity).
  rewrite D1, D2, !read_fort_int_field. cbn [bind].
  rewrite (read_ctrl_write ro (concat fs) suf c); auto.
  - cbn [bind]. rewrite <- G1, <- G2, <- G3, <- G4. destruct r'; reflexivity.
  - rewrite (length_concat_widths w fs W), SW. reflexivity.
Qed.

(** the counts N1, N2 are read back as integers *)
Lemma cont_rt_N1 wo ro r r' z : cont_rt wo ro r r' -> N1 r = NInt z -> N1 r' = NInt z.
Proof.
  intros (_ & _ & _ & _ & (z' & [E|(_ & _ & E)] & _ & ->) & _) N; rewrite N in E.
  - inversion E; subst; reflexivity.
  - cbn in E. rewrite Z.mul_1_r in E. now subst.
Qed.

(** ** DIR *)

Lemma dir_line ro wo r c : same_width wo ro ->
  in_field (w_width wo) (D_L1 r) -> in_field (w_width wo) (D_L2 r) ->
  in_field (w_width wo) (D_N1 r) -> in_field (w_width wo) (D_N2 r) -> ctrl_fits c ->
  exists l, write_dir wo r c = [l] /\ length l = (6 * w_width wo + 9)%nat /\
    forall suf L ofs, get_line L ofs = Ok (l ++ suf) -> read_dir ro L ofs = Ok (r, c, S ofs).
Proof.
  intros [SW W1] F1 F2 F3 F4 CF. apply in_field_fits in F1, F2, F3, F4; auto.
  unfold write_dir. set (w := w_width wo) in *.
  set (fs := [spaces w; spaces w; int_field w (D_L1 r); int_field w (D_L2 r); int_field w (D_N1 r); int_field w (D_N2 r)]).
  assert (W : widths w fs) by (repeat constructor; auto using length_int_field, length_spaces).
  eexists. split; [reflexivity|].
  match goal with |- length ?x = _ /\ _ => replace x with (concat fs ++ write_ctrl c) end.
  2:{ cbn. rewrite <- !app_assoc. reflexivity. }
  split.
  { rewrite app_length, (length_concat_widths w fs W), length_write_ctrl by auto. cbn. lia. }
  intros suf L ofs G. unfold read_dir.
  replace (spaces w ++ spaces w ++ int_field w (D_L1 r) ++ int_field w (D_L2 r)
   ++ int_field w (D_N1 r) ++ int_field w (D_N2 r) ++ write_ctrl c) with (concat fs ++ write_ctrl c) in G.
  2:{ cbn. rewrite <- !app_assoc. reflexivity. }
  rewrite G. cbn [bind]. rewrite <- app_assoc, SW. fold w.
  rewrite (field_concat w fs 2 (int_field w (D_L1 r))), (field_concat w fs 3 (int_field w (D_L2 r))),
    (field_concat w fs 4 (int_field w (D_N1 r))), (field_concat w fs 5 (int_field w (D_N2 r))) by (auto; reflexivity).
  rewrite !read_fort_int_field. cbn [bind].
  rewrite (read_ctrl_write ro (concat fs) suf c); auto.
  - cbn [bind]. destruct r; reflexivity.
  - rewrite (length_concat_widths w fs W), SW. reflexivity.
Qed.

(** ** Arrays *)

Lemma write_floats_array wo ro vals ws : same_width wo ro ->
  Forall2 (float_rt wo ro) vals ws -> vals <> [] ->
  exists fs, write_endf_floats wo vals = Ok (array_lines (w_width wo) fs) /\
    widths (w_width wo) fs /\ length fs = length vals /\
    Forall2 (fun s w => read_fort_float ro s = Ok w) fs ws.
Proof.
  intros [SW W1] H N.
  assert (E : exists fs, Forall2 (fun v s => float2fortstr wo v = Ok s) vals fs /\
    widths (w_width wo) fs /\ Forall2 (fun s w => read_fort_float ro s = Ok w) fs ws).
  { clear N. induction H as [|v w vals ws (s & A & B & C) H (fs & X & Y & Z)].
    - exists []. repeat constructor.
    - exists (s :: fs). repeat split; constructor; auto. }
  destruct E as (fs & X & Y & Z). exists fs.
  pose proof (Forall2_length X) as LX.
  repeat split; auto. unfold write_endf_floats.
  assert (M : mapM (write_fort_floats wo) (chunks6 (length vals) vals)
              = Ok (map (@concat ascii) (chunks6 (length fs) fs))).
  { clear N Y Z H LX W1 SW. revert fs X. induction vals as [|l N L|l r L N IH] using chunk_ind; intros fs X.
    - inversion X; subst. reflexivity.
    - pose proof (Forall2_length X) as LX.
      rewrite (chunks6_small l), (chunks6_small fs); auto; try lia.
      2:{ destruct fs; [destruct l; [contradiction|discriminate]|discriminate]. }
      cbn [mapM map]. unfold write_fort_floats at 1. rewrite (Forall2_mapM _ _ _ X). reflexivity.
    - apply Forall2_app_inv_l in X as (f1 & f2 & X1 & X2 & ->).
      pose proof (Forall2_length X1) as LX.
      rewrite !chunks6_app by lia. cbn [mapM map]. unfold write_fort_floats at 1.
      rewrite (Forall2_mapM _ _ _ X1). cbn [bind]. rewrite (IH f2 X2). reflexivity. }
  rewrite M. cbn [bind]. apply ljust_last_chunks; auto.
  destruct fs; [destruct vals; [contradiction|discriminate]|discriminate].
Qed.

Lemma write_ints_array wo vals : vals <> [] -> Forall (fits (w_width wo)) vals ->
  write_endf_ints wo vals = Ok (array_lines (w_width wo) (map (int_field (w_width wo)) vals)).
Proof.
  intros N F. unfold write_endf_ints.
  assert (W : widths (w_width wo) (map (int_field (w_width wo)) vals)).
  { apply Forall_map. eapply Forall_impl; [|exact F]. intros. now apply length_int_field. }
  rewrite <- ljust_last_chunks; auto; [|destruct vals; [contradiction|discriminate]].
  f_equal. rewrite map_chunks6, map_map. reflexivity.
Qed.

Lemma write_numbers_nil wo : write_endf_floats wo [] = Err IndexError /\ write_endf_ints wo [] = Err IndexError.
Proof. split; reflexivity. Qed.

Lemma floats_roundtrip wo ro vals ws : same_width wo ro -> Forall2 (float_rt wo ro) vals ws -> vals <> [] ->
  exists ls, write_endf_floats wo vals = Ok ls /\ length ls = lines6 (length vals) /\
    full_lines (w_width wo) ls /\
    forall L ofs, at_lines ls L ofs ->
      read_endf_numbers ro false L (Z.of_nat (length vals)) ofs = Ok (ws, (ofs + length ls)%nat).
Proof.
  intros SW H N. destruct (write_floats_array wo ro vals ws SW H N) as (fs & E & W & Lf & R).
  exists (array_lines (w_width wo) fs). split; auto.
  rewrite array_lines_length, Lf. split; auto. split; [now apply array_lines_full|].
  intros L ofs A. unfold read_endf_numbers. destruct SW as [SW _]. rewrite <- SW in *.
  rewrite Nat2Z.id, <- Lf. rewrite (read_numbers_array ro fs ws); auto.
Qed.

Lemma ints_roundtrip wo ro vals : same_width wo ro -> vals <> [] ->
  Forall (fun z => in_field (w_width wo) z /\ Z.abs z <= 2 ^ 53) vals ->
  exists ls, write_endf_ints wo vals = Ok ls /\ length ls = lines6 (length vals) /\
    full_lines (w_width wo) ls /\
    forall L ofs, at_lines ls L ofs ->
      read_endf_numbers ro true L (Z.of_nat (length vals)) ofs = Ok (map NInt vals, (ofs + length ls)%nat).
Proof.
  intros SW N F. pose proof SW as [SW1 W1].
  assert (F' : Forall (fits (w_width wo)) vals).
  { eapply Forall_impl; [|exact F]. intros z [Hz _]. now apply in_field_fits. }
  set (fs := map (int_field (w_width wo)) vals).
  assert (W : widths (w_width wo) fs).
  { apply Forall_map. eapply Forall_impl; [|exact F']. intros. now apply length_int_field. }
  assert (Lf : length fs = length vals) by apply map_length.
  exists (array_lines (w_width wo) fs). rewrite write_ints_array by auto. split; [reflexivity|].
  rewrite array_lines_length, Lf. split; auto. split; [now apply array_lines_full|].
  assert (R : exists ws, Forall2 (fun s w => read_fort_float ro s = Ok w) fs ws /\ mapM to_int1 ws = Ok (map NInt vals)).
  { unfold fs. clear - F SW1 W1. rewrite <- SW1 in *. induction F as [|z vals [Hz Hb] F (ws & A & B)].
    - exists []. split; [constructor|reflexivity].
    - destruct (read_int_as_float ro z Hz W1 Hb) as (v & E1 & E2).
      exists (v :: ws). split; [constructor; auto|]. cbn. rewrite E2. cbn. rewrite B. reflexivity. }
  destruct R as (ws & A & B). intros L ofs AL. unfold read_endf_numbers. rewrite <- SW1 in *.
  rewrite Nat2Z.id, <- Lf. rewrite (read_numbers_array ro fs ws); auto. cbn [bind]. now rewrite B.
Qed.

(** ** LIST *)

Lemma repeat_float_rt wo ro v w n : float_rt wo ro v w -> Forall2 (float_rt wo ro) (repeat v n) (repeat w n).
Proof. intros H. induction n; cbn; constructor; auto. Qed.

Lemma read_numbers_prefix ro fs fs' ws : forall L ofs fuel,
  widths (r_width ro) (fs ++ fs') -> Forall2 (fun s w => read_fort_float ro s = Ok w) fs ws ->
  at_lines (array_lines (r_width ro) (fs ++ fs')) L ofs -> (length fs <= fuel)%nat ->
  read_numbers_loop ro fuel L (Z.of_nat (length fs)) ofs = Ok (ws, (ofs + lines6 (length fs))%nat).
Proof.
  unfold array_lines. revert ws.
  induction fs as [|l N Le|l r Le N IH] using chunk_ind; intros ws L ofs fuel W H A F.
  - inversion H; subst. change (lines6 (length (@nil str))) with 0%nat. rewrite Nat.add_0_r.
    destruct fuel; reflexivity.
  - assert (Ln : (1 <= length l)%nat) by (destruct l; [contradiction|cbn; lia]).
    assert (X : exists rest suf, get_line L ofs = Ok (concat l ++ rest ++ suf)).
    { rewrite chunks6_cons in A by (destruct l; [contradiction|discriminate]). cbn [map] in A.
      apply at_lines_cons in A as [(suf & G) _].
      rewrite firstn_app, firstn_all2 in G by lia. rewrite concat_app in G. unfold ljust in G.
      rewrite <- !app_assoc in G. eexists. exists []. rewrite app_nil_r. exact G. }
    destruct X as (rest & suf & G). apply Forall_app in W as [Wl _].
    destruct fuel as [|fuel]; [lia|]. cbn [read_numbers_loop].
    destruct (Z.leb_spec (Z.of_nat (length l)) 0); [lia|].
    rewrite G. cbn [bind].
    replace (Z.to_nat (Z.min 6 (Z.of_nat (length l)))) with (length l) by lia.
    rewrite (read_fort_floats_concat ro l ws) by auto. cbn [bind].
    assert (read_numbers_loop ro fuel L (Z.of_nat (length l) - 6) (S ofs) = Ok ([], S ofs)) as ->.
    { destruct fuel; [reflexivity|]. cbn [read_numbers_loop].
      destruct (Z.leb_spec (Z.of_nat (length l) - 6) 0); [reflexivity|lia]. }
    cbn [bind]. rewrite app_nil_r, lines6_small by lia. f_equal. f_equal. lia.
  - rewrite <- app_assoc in W, A. apply Forall_app in W as [Wl Wr].
    apply Forall2_app_inv_l in H as (w1 & w2 & H1 & H2 & ->).
    rewrite chunks6_app in A by auto. cbn [map] in A. apply at_lines_cons in A as [(suf & G) A].
    rewrite app_length in *. destruct fuel as [|fuel]; [lia|]. cbn [read_numbers_loop].
    destruct (Z.leb_spec (Z.of_nat (length l + length r)) 0); [lia|].
    rewrite G. cbn [bind].
    replace (Z.to_nat (Z.min 6 (Z.of_nat (length l + length r)))) with (length l) by lia.
    unfold ljust. rewrite <- app_assoc. rewrite (read_fort_floats_concat ro l w1) by auto. cbn [bind].
    replace (Z.of_nat (length l + length r) - 6) with (Z.of_nat (length r)) by lia.
    rewrite (IH w2 L (S ofs) fuel) by (auto; lia). cbn [bind]. f_equal. f_equal.
    rewrite (lines6_step (length l + length r)) by lia.
    replace (length l + length r - 6)%nat with (length r) by lia. lia.
Qed.

(** number of lines after padding to full lines *)
Lemma lines6_pad n k : (6 * lines6 n = n + k)%nat -> lines6 (n + k) = lines6 n.
Proof.
  intros H. rewrite <- H. unfold lines6 at 1. 
  replace (6 * lines6 n + 5)%nat with (5 + lines6 n * 6)%nat by lia.
  rewrite Nat.div_add by lia. reflexivity.
Qed.

Lemma list_roundtrip wo ro r r' c vals ws z0 : same_width wo ro -> cont_rt wo ro r r' -> ctrl_fits c ->
  N1 r = NInt (Z.of_nat (length vals)) -> Forall2 (float_rt wo ro) vals ws ->
  float_rt wo ro (NFlt (S754_zero false)) z0 ->
  exists ls, write_list wo r c vals = Ok ls /\ length ls = S (lines6 (length vals)) /\
    Forall (fun l => length l = (6 * w_width wo + 9)%nat) ls /\
    forall L ofs, at_lines ls L ofs -> read_list ro L ofs = Ok (r', c, ws, (ofs + length ls)%nat).
Proof.
  intros SW CR CF HN H Hz.
  destruct (cont_line ro wo r r' c SW CR CF) as (l & E & Ll & R).
  set (n := Z.of_nat (length vals)) in *.
  unfold write_list. rewrite HN. fold n.
  assert (num_lt_Z (NInt n) n = false) as ->.
  { unfold num_lt_Z. cbn [num_num num_den]. apply Z.ltb_ge. lia. }
  assert (Z_lt_num n (NInt n) = false) as ->.
  { unfold Z_lt_num. cbn [num_num num_den]. apply Z.ltb_ge. lia. }
  rewrite E. cbn [bind].
  pose proof (cont_rt_N1 _ _ _ _ _ CR HN) as HN'.
  destruct (Z.ltb_spec 0 n) as [Pn|Pn].
  2:{ assert (vals = []) by (destruct vals; [reflexivity|cbn in *; unfold n in Pn; cbn in Pn; lia]). subst vals.
      inversion H; subst ws. cbn [bind map]. rewrite app_nil_r.
      exists [l]. split; [reflexivity|]. split; [reflexivity|]. split; [repeat constructor; auto|].
      intros L ofs A. apply at_lines_cons in A as [(suf & G) _].
      unfold read_list. rewrite (R suf L ofs G). cbn [bind]. rewrite HN'. cbn.
      f_equal. f_equal. lia. }
  set (k := if n mod 6 =? 0 then 0%nat else Z.to_nat (6 - n mod 6)).
  assert (Ep : (if n mod 6 =? 0 then [] else repeat (NFlt (S754_zero false)) (Z.to_nat (6 - n mod 6)))
               = repeat (NFlt (S754_zero false)) k) by (unfold k; destruct (n mod 6 =? 0); reflexivity).
  rewrite Ep.
  assert (Hk : (6 * lines6 (length vals) = length vals + k)%nat).
  { unfold k, lines6. pose proof (Z.div_mod n 6 ltac:(lia)) as DM. pose proof (Z.mod_pos_bound n 6 ltac:(lia)).
    apply Nat2Z.inj. rewrite Nat2Z.inj_mul, Nat2Z.inj_add, Nat2Z.inj_div, Nat2Z.inj_add. fold n.
    change (Z.of_nat 6) with 6. change (Z.of_nat 5) with 5.
    destruct (Z.eqb_spec (n mod 6) 0) as [Z0|Z0].
    - rewrite <- (Z.div_unique (n + 5) 6 (n / 6) 5); lia.
    - rewrite Z2Nat.id by lia. rewrite <- (Z.div_unique (n + 5) 6 (n / 6 + 1) (n mod 6 - 1)); lia. }
  assert (H2 : Forall2 (float_rt wo ro) (vals ++ repeat (NFlt (S754_zero false)) k) (ws ++ repeat z0 k)).
  { apply Forall2_app; auto. now apply repeat_float_rt. }
  assert (N2' : vals ++ repeat (NFlt (S754_zero false)) k <> []).
  { destruct vals; [unfold n in Pn; cbn in Pn; lia|discriminate]. }
  destruct (write_floats_array wo ro _ _ SW H2 N2') as (fs & Ef & W & Lf & Rf).
  rewrite Ef. cbn [bind].
  eexists. split; [reflexivity|]. 
  assert (LA : length (array_lines (w_width wo) fs) = lines6 (length vals)).
  { rewrite array_lines_length, Lf, app_length, repeat_length. now apply lines6_pad. }
  split. { cbn. rewrite map_length, LA. reflexivity. }
  split.
  { constructor; auto. apply Forall_map. eapply Forall_impl; [|apply (array_lines_full _ _ W)].
    intros x Hx. cbn beta in *. rewrite app_length, Hx, length_write_ctrl by auto. reflexivity. }
  intros L ofs A. apply at_lines_cons in A as [(suf & G) A].
  unfold read_list. rewrite (R suf L ofs G). cbn [bind]. rewrite HN'. cbn [num_as_Z].
  destruct (Z.eqb_spec n 0); [lia|].
  apply at_lines_map_app in A.
  apply Forall2_app_inv_r in Rf as (f1 & f2 & R1 & R2 & ->).
  pose proof (Forall2_length R1) as L1. pose proof (Forall2_length H) as L2.
  unfold read_endf_numbers. destruct SW as [SW _]. rewrite <- SW in *.
  unfold n. rewrite Nat2Z.id. rewrite L2, <- L1.
  rewrite (read_numbers_prefix ro f1 f2 ws) by auto. cbn [bind].
  f_equal. f_equal. rewrite app_length, map_length, LA, L1, <- L2. cbn [length]. lia.
Qed.

Lemma list_write_count wo r c vals ls : write_list wo r c vals = Ok ls -> num_finite (N1 r) = true ->
  num_num (N1 r) = Z.of_nat (length vals) * num_den (N1 r).
Proof.
  unfold write_list, num_lt_Z, Z_lt_num. intros H _.
  destruct (Z.ltb_spec (num_num (N1 r)) (Z.of_nat (length vals) * num_den (N1 r))); [discriminate|].
  destruct (Z.ltb_spec (Z.of_nat (length vals) * num_den (N1 r)) (num_num (N1 r))); [discriminate|]. lia.
Qed.

(** ** TAB1 and TAB2 *)

Lemma interleave_length {A} (a b : list A) : length a = length b -> length (interleave a b) = (2 * length a)%nat.
Proof. revert b; induction a as [|x a IH]; intros [|y b] L; cbn in *; try discriminate; auto. rewrite IH by lia. lia. Qed.

Lemma interleave_evens {A} (a b : list A) : length a = length b ->
  evens (interleave a b) = a /\ odds (interleave a b) = b.
Proof.
  revert b; induction a as [|x a IH]; intros [|y b] L; cbn in *; try discriminate; auto.
  destruct (IH b ltac:(lia)) as [E1 E2]. now rewrite E1, E2.
Qed.

Lemma interleave_map {A B} (f : A -> B) a b : map f (interleave a b) = interleave (map f a) (map f b).
Proof. revert b; induction a as [|x a IH]; intros [|y b]; cbn; auto. now rewrite IH. Qed.

Lemma interleave_Forall {A} (P : A -> Prop) a b : Forall P a -> Forall P b -> Forall P (interleave a b).
Proof.
  intros Ha; revert b; induction Ha as [|x a Hx Ha IH]; intros b Hb; [constructor|].
  destruct Hb as [|y b Hy Hb]; [constructor|]. cbn. repeat constructor; auto.
Qed.
Lemma interleave_Forall2 {A B} (R : A -> B -> Prop) a b a' b' :
  Forall2 R a a' -> Forall2 R b b' -> Forall2 R (interleave a b) (interleave a' b').
Proof.
  intros Ha; revert b b'; induction Ha as [|x x' a a' Hx Ha IH]; intros b b' Hb; [constructor|].
  destruct Hb as [|y y' b b' Hy Hb]; cbn; repeat constructor; auto.
Qed.
Lemma interleave_nonnil {A} (a b : list A) : length a = length b -> a <> [] -> interleave a b <> [].
Proof. destruct a; [contradiction|]. destruct b; discriminate. Qed.

Lemma cont_rt_set_N1 wo ro r r' z : cont_rt wo ro r r' -> in_field (w_width wo) z ->
  cont_rt wo ro (set_N1 r z) (set_N1 r' z).
Proof.
  intros (A & B & C & D & _ & F) I. repeat split; auto. exists z. repeat split; try apply I. now left.
Qed.
Lemma cont_rt_set_N2 wo ro r r' z : cont_rt wo ro r r' -> in_field (w_width wo) z ->
  cont_rt wo ro (set_N2 r z) (set_N2 r' z).
Proof.
  intros (A & B & C & D & E & _) I. repeat split; auto. exists z. repeat split; try apply I. now left.
Qed.

Lemma tab2_roundtrip wo ro r r' c nbt int : same_width wo ro -> cont_rt wo ro r r' -> ctrl_fits c ->
  length nbt = length int -> nbt <> [] ->
  Forall (small_int (w_width wo)) nbt -> Forall (small_int (w_width wo)) int ->
  in_field (w_width wo) (Z.of_nat (length nbt)) ->
  exists ls, write_tab2 wo r c nbt int = Ok ls /\
    Forall (fun l => length l = (6 * w_width wo + 9)%nat) ls /\
    length ls = S (lines6 (2 * length nbt)) /\
    forall L ofs, at_lines ls L ofs ->
      read_tab2 ro L ofs = Ok (set_N1 r' (Z.of_nat (length nbt)), c, (map NInt nbt, map NInt int),
                               (ofs + length ls)%nat).
Proof.
  intros SW CR CF EL NN F1 F2 IF.
  destruct (cont_line ro wo _ _ c SW (cont_rt_set_N1 _ _ _ _ _ CR IF) CF) as (l & E & Ll & R).
  unfold write_tab2. rewrite EL, Nat.eqb_refl. cbn [negb]. rewrite <- EL. rewrite E. cbn [bind].
  destruct (ints_roundtrip wo ro (interleave nbt int) SW (interleave_nonnil _ _ EL NN)
              (interleave_Forall _ _ _ F1 F2)) as (ls & Ei & Len & Full & Rd).
  rewrite Ei. cbn [bind]. eexists. split; [reflexivity|]. split.
  { constructor; auto. apply Forall_map. eapply Forall_impl; [|exact Full].
    intros x Hx. cbn beta in *. rewrite app_length, Hx, length_write_ctrl by auto. reflexivity. }
  split. { cbn. rewrite map_length, Len, interleave_length by auto. reflexivity. }
  intros L ofs A. pose proof A as A0. apply at_lines_cons in A as [(suf & G) A].
  apply at_lines_map_app in A.
  unfold read_tab2. rewrite G. cbn [bind]. rewrite (R suf L ofs G). cbn [bind set_N1 N1 num_as_Z].
  replace (2 * Z.of_nat (length nbt)) with (Z.of_nat (length (interleave nbt int)))
    by (rewrite interleave_length by auto; lia).
  rewrite (Rd L (S ofs) A). cbn [bind].
  assert (RC : read_ctrl ro (l ++ suf) = Ok c).
  { clear -R G. specialize (R suf L ofs G). unfold read_cont in R. rewrite G in R. cbn [bind] in R.
    destruct (read_fort_float ro (field _ 0 _)); [|discriminate]. destruct (read_fort_float ro (field _ 1 _)); [|discriminate].
    do 4 (destruct (read_fort_int _); [|discriminate]). cbn [bind] in R.
    destruct (read_ctrl ro (l ++ suf)); [|discriminate]. cbn in R. inversion R; reflexivity. }
  rewrite RC. cbn [bind]. rewrite interleave_map.
  destruct (interleave_evens (map NInt nbt) (map NInt int)) as [-> ->]; [now rewrite !map_length|].
  f_equal. f_equal. cbn. rewrite map_length. lia.
Qed.

Lemma tab1_roundtrip wo ro r r' c nbt int xs ys xs' ys' : same_width wo ro -> cont_rt wo ro r r' -> ctrl_fits c ->
  length nbt = length int -> nbt <> [] -> length xs = length ys -> xs <> [] ->
  Forall (small_int (w_width wo)) nbt -> Forall (small_int (w_width wo)) int ->
  in_field (w_width wo) (Z.of_nat (length nbt)) -> in_field (w_width wo) (Z.of_nat (length xs)) ->
  Forall2 (float_rt wo ro) xs xs' -> Forall2 (float_rt wo ro) ys ys' ->
  exists ls, write_tab1 wo r c nbt int xs ys = Ok ls /\
    Forall (fun l => length l = (6 * w_width wo + 9)%nat) ls /\
    length ls = S (lines6 (2 * length nbt) + lines6 (2 * length xs)) /\
    forall L ofs, at_lines ls L ofs ->
      read_tab1 ro L ofs =
        Ok (set_N2 (set_N1 r' (Z.of_nat (length nbt))) (Z.of_nat (length xs)), c,
            (map NInt nbt, map NInt int, xs', ys'), (ofs + length ls)%nat).
Proof.
  intros SW CR CF EL NN EX NX F1 F2 IF1 IF2 HX HY.
  destruct (cont_line ro wo _ _ c SW (cont_rt_set_N2 _ _ _ _ _ (cont_rt_set_N1 _ _ _ _ _ CR IF1) IF2) CF) as (l & E & Ll & R).
  unfold write_tab1. rewrite E. cbn [bind]. unfold write_tab1_body_lines.
  rewrite EL, EX, !Nat.eqb_refl. cbn [negb]. rewrite <- EL, <- EX.
  destruct (ints_roundtrip wo ro (interleave nbt int) SW (interleave_nonnil _ _ EL NN)
              (interleave_Forall _ _ _ F1 F2)) as (l1 & Ei & Len & Full & Rd).
  destruct (floats_roundtrip wo ro (interleave xs ys) (interleave xs' ys') SW
              (interleave_Forall2 _ _ _ _ _ HX HY) (interleave_nonnil _ _ EX NX)) as (l2 & Ef & Len2 & Full2 & Rd2).
  rewrite Ei, Ef. cbn [bind]. eexists. split; [reflexivity|]. split.
  { constructor; auto. apply Forall_map. eapply Forall_impl; [|apply Forall_app; split; [exact Full|exact Full2]].
    intros x Hx. cbn beta in *. rewrite app_length, Hx, length_write_ctrl by auto. reflexivity. }
  split. { cbn. rewrite map_length, app_length, Len, Len2, !interleave_length by auto. reflexivity. }
  intros L ofs A. pose proof A as A0. apply at_lines_cons in A as [(suf & G) A].
  apply at_lines_map_app in A. apply at_lines_app in A as [A1 A2].
  unfold read_tab1. rewrite G. cbn [bind]. rewrite (R suf L ofs G).
  cbn [bind set_N1 set_N2 N1 N2 num_as_Z]. unfold read_tab1_body_lines.
  replace (2 * Z.of_nat (length nbt)) with (Z.of_nat (length (interleave nbt int)))
    by (rewrite interleave_length by auto; lia).
  rewrite (Rd L (S ofs) A1). cbn [bind].
  replace (2 * Z.of_nat (length xs)) with (Z.of_nat (length (interleave xs ys)))
    by (rewrite interleave_length by auto; lia).
  rewrite (Rd2 L _ A2). cbn [bind].
  assert (RC : read_ctrl ro (l ++ suf) = Ok c).
  { clear -R G. specialize (R suf L ofs G). unfold read_cont in R. rewrite G in R. cbn [bind] in R.
    destruct (read_fort_float ro (field _ 0 _)); [|discriminate]. destruct (read_fort_float ro (field _ 1 _)); [|discriminate].
    do 4 (destruct (read_fort_int _); [|discriminate]). cbn [bind] in R.
    destruct (read_ctrl ro (l ++ suf)); [|discriminate]. cbn in R. inversion R; reflexivity. }
  rewrite RC. cbn [bind]. rewrite interleave_map.
  destruct (interleave_evens (map NInt nbt) (map NInt int)) as [-> ->]; [now rewrite !map_length|].
  destruct (interleave_evens xs' ys') as [-> ->].
  { apply Forall2_length in HX, HY. congruence. }
  f_equal. f_equal. cbn. rewrite map_length, app_length. lia.
Qed.

(** ** TEXT *)

Lemma text_roundtrip wo ro hl c : same_width wo ro -> (length hl <= 6 * w_width wo)%nat -> ctrl_fits c ->
  forall L ofs, at_lines (write_text wo hl c) L ofs ->
  read_text ro L ofs = Ok (ljust (6 * w_width wo) hl, c, S ofs).
Proof.
  intros [SW W1] Lh CF L ofs A. unfold write_text in A. apply at_lines_cons in A as [(suf & G) _].
  unfold read_text. rewrite G. cbn [bind]. rewrite (Nat.mul_comm (w_width wo)) in *.
  assert (LL : length (ljust (6 * w_width wo) hl) = (6 * w_width wo)%nat) by now apply length_ljust_le.
  rewrite <- app_assoc. rewrite read_ctrl_write by (auto; rewrite SW; auto). cbn [bind].
  rewrite SW, (Nat.mul_comm (w_width wo)).
  rewrite slice_app_l by (rewrite LL; auto). rewrite slice_full by (rewrite LL; auto). reflexivity.
Qed.

(** ** INTG *)

(** positions and count per NDIGIT *)
Definition intg_count (nd : nat) : nat := length (intg_positions nd).

Lemma intg_positions_eq nd : (2 <= nd <= 6)%nat ->
  intg_positions nd = map (fun i => ((if Nat.eqb nd 6 then 10 else 11) + i * (nd + 1))%nat) (seq 0 (intg_count nd)).
Proof.
  intros H. assert (nd = 2 \/ nd = 3 \/ nd = 4 \/ nd = 5 \/ nd = 6)%nat as D by lia.
  destruct D as [-> | [-> | [-> | [-> | ->]]]]; vm_compute; reflexivity.
Qed.

Lemma intg_roundtrip wo ro nd r c : same_width wo ro -> (11 <= w_width wo)%nat ->
  nd = 2 \/ nd = 4 \/ nd = 5 \/ nd = 6 ->
  in_field 5 (G_II r) -> in_field 5 (G_JJ r) ->
  length (G_KIJ r) = intg_count (Z.to_nat nd) ->
  Forall (in_field (Z.to_nat nd + 1)) (G_KIJ r) -> ctrl_fits c ->
  exists l, write_intg wo nd r c = [l] /\ length l = (6 * w_width wo + 9)%nat /\
    forall suf L ofs, get_line L ofs = Ok (l ++ suf) -> read_intg ro nd L ofs = Ok (r, c, S ofs).
Proof.
  intros [SW W1] W11 Hnd FI FJ LK FK CF.
  set (n := Z.to_nat nd) in *.
  assert (Hn : (2 <= n <= 6)%nat) by (unfold n; lia).
  assert (Hnz : nd = Z.of_nat n) by (unfold n; lia).
  apply in_field_fits in FI, FJ; try lia.
  assert (FK' : Forall (fits (n + 1)) (G_KIJ r)).
  { eapply Forall_impl; [|exact FK]. intros z Hz. apply in_field_fits; auto. lia. }
  unfold write_intg. rewrite Hnz. replace (Z.to_nat (Z.of_nat n + 1)) with (n + 1)%nat by lia.
  set (spacer := if Z.of_nat n =? 6 then [] else $" ").
  set (fs := map (fun k => rjust (n + 1) (str_of_Z k)) (G_KIJ r)).
  assert (W : widths (n + 1) fs).
  { apply Forall_map. eapply Forall_impl; [|exact FK']. intros z Hz. now apply length_rjust_le. }
  assert (Lfs : length fs = intg_count n) by (unfold fs; now rewrite map_length).
  set (p1 := rjust 5 (str_of_Z (G_II r))). set (p2 := rjust 5 (str_of_Z (G_JJ r))).
  assert (Lp1 : length p1 = 5%nat) by now apply length_rjust_le.
  assert (Lp2 : length p2 = 5%nat) by now apply length_rjust_le.
  set (start := (if Nat.eqb n 6 then 10 else 11)%nat).
  assert (Ls : (length (p1 ++ p2 ++ spacer) = start)%nat).
  { rewrite !app_length, Lp1, Lp2. unfold spacer, start.
    destruct (Z.eqb_spec (Z.of_nat n) 6); destruct (Nat.eqb_spec n 6); cbn; lia. }
  assert (Lb : (length (p1 ++ p2 ++ spacer ++ concat fs) <= w_width wo * 6)%nat).
  { replace (p1 ++ p2 ++ spacer ++ concat fs) with ((p1 ++ p2 ++ spacer) ++ concat fs) by now rewrite <- !app_assoc.
    rewrite app_length, Ls, (length_concat_widths _ _ W), Lfs.
    assert (start + intg_count n * (n + 1) <= 66)%nat; [|lia].
    unfold n, start in *. destruct Hnd as [-> | [-> | [-> | ->]]]; vm_compute; lia. }
  eexists. split; [reflexivity|].
  set (body := ljust (w_width wo * 6) (p1 ++ p2 ++ spacer ++ concat fs)).
  assert (LB : length body = (w_width wo * 6)%nat) by now apply length_ljust_le.
  split. { rewrite app_length, LB, length_write_ctrl by auto. lia. }
  intros suf L ofs G. unfold read_intg.
  destruct (Z.ltb_spec (Z.of_nat n) 2); [lia|]. destruct (Z.ltb_spec 6 (Z.of_nat n)); [lia|].
  cbn [orb]. rewrite G. cbn [bind]. rewrite Nat2Z.id.
  rewrite <- app_assoc.
  assert (EB : exists pad, body = (p1 ++ p2 ++ spacer) ++ concat fs ++ pad).
  { eexists. unfold body, ljust. rewrite <- !app_assoc. reflexivity. }
  destruct EB as (pad & EB).
  assert (S1 : slice 0 5 (body ++ write_ctrl c ++ suf) = p1).
  { rewrite EB, <- !app_assoc. apply (slice_at [] p1 _); cbn [length]; auto. }
  assert (S2 : slice 5 10 (body ++ write_ctrl c ++ suf) = p2).
  { rewrite EB, <- !app_assoc. apply slice_at; lia. }
  rewrite S1, S2. unfold p1, p2. fold (int_field 5 (G_II r)) (int_field 5 (G_JJ r)).
  rewrite !read_fort_int_field. cbn [bind].
  assert (SK : mapM (fun i => read_fort_int (slice i (i + n + 1) (body ++ write_ctrl c ++ suf))) (intg_positions n)
               = Ok (G_KIJ r)).
  { rewrite intg_positions_eq by auto. fold start. apply Forall2_mapM.
    apply Forall2_nth_iff; [rewrite map_length, seq_length; auto|].
    intros i a b Ha Hb.
    assert (Hi : (i < intg_count n)%nat) by (rewrite <- LK; apply nth_error_Some; congruence).
    assert (a = (start + i * (n + 1))%nat) as ->.
    { rewrite nth_error_map, (nth_error_nth' _ 0%nat) in Ha by (rewrite seq_length; auto).
      rewrite seq_nth in Ha by auto. cbn in Ha. now inversion Ha. }
    replace (start + i * (n + 1) + n + 1)%nat with (start + (i * (n + 1) + (n + 1)))%nat by lia.
    rewrite EB, <- !app_assoc.
    replace (p1 ++ p2 ++ spacer ++ concat fs ++ pad ++ write_ctrl c ++ suf)
      with ((p1 ++ p2 ++ spacer) ++ (concat fs ++ pad ++ write_ctrl c ++ suf)) by now rewrite <- !app_assoc.
    rewrite slice_app_r by lia. rewrite Ls.
    replace (start + i * (n + 1) - start)%nat with (i * (n + 1))%nat by lia.
    replace (start + (i * (n + 1) + (n + 1)) - start)%nat with (i * (n + 1) + (n + 1))%nat by lia.
    rewrite (slice_concat (n + 1) fs i (int_field (n + 1) b)); auto.
    - apply read_fort_int_field.
    - unfold fs. rewrite nth_error_map, Hb. reflexivity. }
  rewrite SK. cbn [bind]. rewrite read_ctrl_write; auto.
  - cbn [bind]. now destruct r.
  - rewrite LB, SW. lia.
Qed.

Lemma intg_count_spec nd : nd = 2 \/ nd = 4 \/ nd = 5 \/ nd = 6 ->
  intg_values nd = intg_count (Z.to_nat nd).
Proof. intros [-> | [-> | [-> | ->]]]; reflexivity. Qed.

Lemma intg_roundtrip_spec wo ro nd r c : same_width wo ro -> (11 <= w_width wo)%nat ->
  nd = 2 \/ nd = 4 \/ nd = 5 \/ nd = 6 ->
  in_field 5 (G_II r) -> in_field 5 (G_JJ r) -> length (G_KIJ r) = intg_values nd ->
  Forall (in_field (Z.to_nat nd + 1)) (G_KIJ r) -> ctrl_fits c ->
  exists l, write_intg wo nd r c = [l] /\ length l = (6 * w_width wo + 9)%nat /\
    forall L ofs, at_lines [l] L ofs -> read_intg ro nd L ofs = Ok (r, c, S ofs).
Proof.
  intros SW W Hn F1 F2 LK F3 CF. rewrite intg_count_spec in LK by auto.
  destruct (intg_roundtrip wo ro nd r c SW W Hn F1 F2 LK F3 CF) as (l & E & Ll & R).
  exists l. split; [exact E|]. split; [exact Ll|]. intros L ofs A.
  apply at_lines_cons in A as [(suf & G) _]. eapply R; eauto.
Qed.

Lemma intg3_read ro L ofs r c ofs' : read_intg ro 3 L ofs = Ok (r, c, ofs') -> length (G_KIJ r) = 14%nat.
Proof.
  unfold read_intg. cbn [Z.ltb orb]. change (Z.to_nat 3) with 3%nat.
  change ((3 <? 2) || (6 <? 3)) with false. cbn iota.
  destruct (get_line L ofs) as [line|]; [|discriminate]. cbn [bind].
  destruct (read_fort_int (slice 0 5 line)); [|discriminate]. cbn [bind].
  destruct (read_fort_int (slice 5 10 line)); [|discriminate]. cbn [bind].
  destruct (mapM _ (intg_positions 3)) as [kij|] eqn:M; [|discriminate]. cbn [bind].
  destruct (read_ctrl ro line); [|discriminate]. cbn [bind]. intros H. inversion H; subst. cbn [G_KIJ].
  apply mapM_length in M. rewrite M. reflexivity.
Qed.

Lemma intg3_write wo r c : w_width wo = 11%nat ->
  in_field 5 (G_II r) -> in_field 5 (G_JJ r) -> length (G_KIJ r) = 14%nat ->
  Forall (in_field 4) (G_KIJ r) -> ctrl_fits c ->
  exists l, write_intg wo 3 r c = [l] /\ length l = 76%nat.
Proof.
  intros W F1 F2 LK F3 CF. unfold write_intg. eexists. split; [reflexivity|].
  apply in_field_fits in F1, F2; try lia. unfold fits in F1, F2.
  rewrite app_length, length_ljust, !app_length, !length_rjust, (length_write_ctrl c CF), W.
  rewrite (length_concat_widths 4).
  - rewrite map_length, LK. change (length (if 3 =? 6 then [] else $" ")) with 1%nat. lia.
  - apply Forall_map. eapply Forall_impl; [|exact F3]. intros z Hz. apply in_field_fits in Hz; [|lia].
    change (Z.to_nat (3 + 1)) with 4%nat. now apply length_rjust_le.
Qed.

Definition intg3_rec : intgrec := {| G_II := 1; G_JJ := 2; G_KIJ := repeat 100 14 |}.
Definition intg3_ctrl : ctrl := {| MAT := 2625; MF := 33; MT := 2 |}.
Lemma intg3_no_roundtrip :
  Forall (in_field 4) (G_KIJ intg3_rec) /\
  read_intg default_ro 3 (write_intg default_wo 3 intg3_rec intg3_ctrl) 0 =
    Ok (intg3_rec, {| MAT := 262; MF := 53; MT := 3 |}, 1%nat).
Proof. split; [repeat constructor; vm_compute; auto|]. vm_compute. reflexivity. Qed.

Lemma dir_roundtrip ro wo r c : same_width wo ro ->
  in_field (w_width wo) (D_L1 r) -> in_field (w_width wo) (D_L2 r) ->
  in_field (w_width wo) (D_N1 r) -> in_field (w_width wo) (D_N2 r) -> ctrl_fits c ->
  exists l, write_dir wo r c = [l] /\ length l = (6 * w_width wo + 9)%nat /\
    forall L ofs, at_lines [l] L ofs -> read_dir ro L ofs = Ok (r, c, S ofs).
Proof.
  intros SW F1 F2 F3 F4 CF. destruct (dir_line ro wo r c SW F1 F2 F3 F4 CF) as (l & E & Ll & R).
  exists l. split; [exact E|]. split; [exact Ll|]. intros L ofs A.
  apply at_lines_cons in A as [(suf & G) _]. eapply R; eauto.
Qed.

Lemma cont_roundtrip ro wo r r' c : same_width wo ro -> cont_rt wo ro r r' -> ctrl_fits c ->
  exists l, write_cont wo r c = Ok [l] /\ length l = (6 * w_width wo + 9)%nat /\
    forall L ofs, at_lines [l] L ofs -> read_cont ro L ofs = Ok (r', c, S ofs).
Proof.
  intros SW CR CF. destruct (cont_line ro wo r r' c SW CR CF) as (l & E & Ll & R).
  exists l. split; [exact E|]. split; [exact Ll|]. intros L ofs A.
  apply at_lines_cons in A as [(suf & G) _]. eapply R; eauto.
Qed.

(** integer slots hold integers *)
Lemma write_cont_slots wo r c ls : write_cont wo r c = Ok ls ->
  exists l1 l2 n1 n2, int_valued wo (L1 r) l1 /\ int_valued wo (L2 r) l2 /\
    int_valued wo (N1 r) n1 /\ int_valued wo (N2 r) n2.
Proof.
  unfold write_cont.
  destruct (int_slot wo (L1 r)) as [l1|] eqn:E1; [|discriminate].
  destruct (int_slot wo (L2 r)) as [l2|] eqn:E2; [|discriminate].
  destruct (int_slot wo (N1 r)) as [n1|] eqn:E3; [|discriminate].
  destruct (int_slot wo (N2 r)) as [n2|] eqn:E4; [|discriminate].
  intros _. exists l1, l2, n1, n2. auto using int_slot_valued.
Qed.

(** which tables can be written *)
Lemma write_floats_ok_iff wo vals :
  (exists ls, write_endf_floats wo vals = Ok ls) <->
  vals <> [] /\ Forall (fun v => exists s, float2fortstr wo v = Ok s) vals.
Proof.
  split.
  - intros (ls & H). split; [intros ->; discriminate|].
    unfold write_endf_floats in H. destruct (mapM _ _) as [lines|] eqn:M; [|discriminate].
    clear H. revert lines M. induction vals as [|l N L|l r L N IH] using chunk_ind; intros lines M; [constructor| |].
    + rewrite chunks6_small in M by auto. cbn [mapM] in M. unfold write_fort_floats in M.
      destruct (mapM (float2fortstr wo) l) as [ss|] eqn:E; [|discriminate].
      apply mapM_Forall2 in E. clear - E. induction E; constructor; eauto.
    + rewrite chunks6_app in M by auto. cbn [mapM] in M. unfold write_fort_floats in M at 1.
      destruct (mapM (float2fortstr wo) l) as [ss|] eqn:E; [|discriminate]. cbn [bind] in M.
      destruct (mapM (write_fort_floats wo) _) as [l2|] eqn:M2; [|discriminate].
      apply Forall_app. split; [|eapply IH; eauto].
      apply mapM_Forall2 in E. clear - E. induction E; constructor; eauto.
  - intros [N F]. assert (exists fs, mapM (float2fortstr wo) vals = Ok fs) as (fs & E).
    { clear N. induction F as [|v vals (s & Hs) F (fs & IH)]; [eexists; reflexivity|].
      cbn. rewrite Hs, IH. eexists; reflexivity. }
    apply mapM_Forall2 in E. unfold write_endf_floats.
    assert (M : exists ls, mapM (write_fort_floats wo) (chunks6 (length vals) vals) = Ok ls /\ ls <> []).
    { clear F. revert fs E. induction vals as [|l N' L|l r L N' IH] using chunk_ind; intros fs E; [contradiction| |].
      - rewrite chunks6_small by auto. cbn [mapM]. unfold write_fort_floats.
        apply Forall2_mapM in E. rewrite E. eexists; split; [reflexivity|discriminate].
      - apply Forall2_app_inv_l in E as (f1 & f2 & E1 & E2 & ->).
        destruct (IH N' f2 E2) as (ls & M & _). rewrite chunks6_app by auto. cbn [mapM].
        unfold write_fort_floats at 1. apply Forall2_mapM in E1. rewrite E1. cbn [bind]. rewrite M.
        eexists; split; [reflexivity|discriminate]. }
    destruct M as (ls & M & NL). rewrite M. cbn [bind].
    clear - NL. induction ls as [|l [|l2 ls] IH]; [contradiction|eexists; reflexivity|].
    destruct IH as (r & IH); [discriminate|]. rewrite ljust_last_cons by discriminate. rewrite IH. eexists; reflexivity.
Qed.

Lemma write_ints_ok_iff wo vals : (exists ls, write_endf_ints wo vals = Ok ls) <-> vals <> [].
Proof.
  split.
  - intros (ls & H) ->. discriminate.
  - intros N. unfold write_endf_ints.
    assert (NL : map (fun ch => concat (map (int_field (w_width wo)) ch)) (chunks6 (length vals) vals) <> []).
    { rewrite chunks6_cons by auto. discriminate. }
    revert NL. generalize (map (fun ch => concat (map (int_field (w_width wo)) ch)) (chunks6 (length vals) vals)).
    intros ls NL. induction ls as [|l [|l2 ls] IH]; [contradiction|eexists; reflexivity|].
    destruct IH as (r & IH); [discriminate|]. rewrite ljust_last_cons by discriminate. rewrite IH. eexists; reflexivity.
Qed.

Lemma interleave_Forall_inv {A} (P : A -> Prop) a b : length a = length b ->
  Forall P (interleave a b) -> Forall P a /\ Forall P b.
Proof.
  revert b; induction a as [|x a IH]; intros [|y b] L H; cbn in *; try discriminate; [split; constructor|].
  inversion H as [|? ? H1 H2]; subst. inversion H2 as [|? ? H3 H4]; subst.
  destruct (IH b ltac:(lia) H4). split; constructor; auto.
Qed.

Lemma write_tab1_ok_iff wo r c nbt int xs ys : length nbt = length int -> length xs = length ys ->
  (exists ls, write_tab1 wo r c nbt int xs ys = Ok ls) <->
  nbt <> [] /\ xs <> [] /\
  (exists l, write_cont wo (set_N2 (set_N1 r (Z.of_nat (length nbt))) (Z.of_nat (length xs))) c = Ok l) /\
  Forall (fun v => exists s, float2fortstr wo v = Ok s) (xs ++ ys).
Proof.
  intros E1 E2. unfold write_tab1, write_tab1_body_lines.
  set (r2 := set_N2 _ _). rewrite E1, E2, !Nat.eqb_refl. cbn [negb].
  pose proof (write_ints_ok_iff wo (interleave nbt int)) as WI.
  pose proof (write_floats_ok_iff wo (interleave xs ys)) as WF.
  split.
  - intros (ls & H). destruct (write_cont wo r2 c) as [l|] eqn:EC; [|discriminate]. cbn [bind] in H.
    destruct (write_endf_ints wo (interleave nbt int)) as [l1|] eqn:EI; [|discriminate]. cbn [bind] in H.
    destruct (write_endf_floats wo (interleave xs ys)) as [l2|] eqn:EF; [|discriminate].
    destruct (proj1 WF (ex_intro _ l2 eq_refl)) as [NF FF].
    pose proof (proj1 WI (ex_intro _ l1 eq_refl)) as NI.
    split; [|split; [|split; [eauto|]]].
    + intros ->. apply NI. reflexivity.
    + intros ->. apply NF. reflexivity.
    + apply interleave_Forall_inv in FF; auto. now apply Forall_app.
  - intros (N1 & N2 & (l & ->) & F). cbn [bind]. apply Forall_app in F as [F1 F2].
    destruct (proj2 WI (interleave_nonnil _ _ E1 N1)) as (l1 & ->). cbn [bind].
    destruct (proj2 WF (conj (interleave_nonnil _ _ E2 N2) (interleave_Forall _ _ _ F1 F2))) as (l2 & ->).
    eexists; reflexivity.
Qed.

Lemma write_tab2_ok_iff wo r c nbt int : length nbt = length int ->
  (exists ls, write_tab2 wo r c nbt int = Ok ls) <->
  nbt <> [] /\ (exists l, write_cont wo (set_N1 r (Z.of_nat (length nbt))) c = Ok l).
Proof.
  intros E1. unfold write_tab2. rewrite E1, Nat.eqb_refl. cbn [negb].
  pose proof (write_ints_ok_iff wo (interleave nbt int)) as WI. split.
  - intros (ls & H). destruct (write_cont wo _ c) as [l|] eqn:EC; [|discriminate]. cbn [bind] in H.
    destruct (write_endf_ints wo (interleave nbt int)) as [l1|] eqn:EI; [|discriminate].
    pose proof (proj1 WI (ex_intro _ l1 eq_refl)) as NI. split; [|eauto].
    intros ->. apply NI. reflexivity.
  - intros (N1 & (l & ->)). cbn [bind].
    destruct (proj2 WI (interleave_nonnil _ _ E1 N1)) as (l1 & ->). eexists; reflexivity.
Qed.

(** a table without interpolation ranges can be read but not written *)
Definition empty_tab2_line : str := $" 1.000000+0 2.000000+0          1          2          0          52625 3  1".
Definition empty_tab_line : str := $" 1.000000+0 2.000000+0          1          2          0          02625 3  1".
Definition empty_tab_rec (n2 : Z) : contrec :=
  {| C1 := NFlt (round64 false 1 1); C2 := NFlt (round64 false 2 1);
     L1 := NInt 1; L2 := NInt 2; N1 := NInt 0; N2 := NInt n2 |}.
Definition empty_tab_ctrl : ctrl := {| MAT := 2625; MF := 3; MT := 1 |}.
Lemma empty_tables :
  (exists r c, read_tab2 default_ro [empty_tab2_line] 0 = Ok (r, c, ([], []), 1%nat) /\
     write_tab2 default_wo r c [] [] = Err IndexError) /\
  (exists r c, read_tab1 default_ro [empty_tab_line] 0 = Ok (r, c, ([], [], [], []), 1%nat) /\
     write_tab1 default_wo r c [] [] [] [] = Err IndexError).
Proof.
  split.
  - exists (empty_tab_rec 5), empty_tab_ctrl. split; vm_compute; reflexivity.
  - exists (empty_tab_rec 0), empty_tab_ctrl. split; vm_compute; reflexivity.
Qed.

Lemma write_list_count_iff wo r c vals : num_finite (N1 r) = true ->
  num_num (N1 r) <> Z.of_nat (length vals) * num_den (N1 r) ->
  write_list wo r c vals = Err UnconsumedListElementsError \/
  write_list wo r c vals = Err MoreListElementsExpectedError.
Proof.
  intros _ H. unfold write_list, num_lt_Z, Z_lt_num.
  destruct (Z.ltb_spec (num_num (N1 r)) (Z.of_nat (length vals) * num_den (N1 r))); auto.
  destruct (Z.ltb_spec (Z.of_nat (length vals) * num_den (N1 r)) (num_num (N1 r))); auto. lia.
Qed.

Lemma float_rt_intro wo ro v w s : float2fortstr wo v = Ok s ->
  length s = w_width wo -> read_fort_float ro s = Ok w -> float_rt wo ro v w.
Proof. intros. exists s. auto. Qed.
