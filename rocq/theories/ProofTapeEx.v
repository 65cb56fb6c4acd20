(** Examples, refutations and final forms of the tape theorems. *)
From Coq Require Import Ascii String ZArith Bool Lia List Sorted.
From Verif Require Import PyBase ProofFields PyFloat ModelFortran ModelRecords ModelTape SpecFields SpecLibm SpecTape SpecTapeEx
  ProofTape ProofTapeWrite ProofTapeParse.
Import ListNotations.
Open Scope Z_scope.

Lemma nodup_check (l : list Z) : (fix f l := match l with [] => true | x :: r => negb (existsb (Z.eqb x) r) && f r end) l = true -> NoDup l.
Proof.
  induction l as [|x l IH]; intros H; constructor; apply andb_true_iff in H as [H1 H2]; auto.
  intros I. apply negb_true_iff in H1. assert (existsb (Z.eqb x) l = true) by (apply existsb_exists; exists x; split; [auto|apply Z.eqb_refl]). congruence.
Qed.

Lemma verbatim_example : field_width default_wo /\ r_width default_ro = w_width default_wo /\ strict default_ro /\
  verbatim 11 125 ex_dict.
Proof.
  split; [unfold field_width; cbn; lia|]. split; [reflexivity|]. split; [split; [|split]; reflexivity|].
  assert (R : forall l c, read_ctrl default_ro l = Ok c -> carries 11 l (MAT c) (MF c) (MT c)).
  { intros l [a b c] H. now apply (carries_iff default_ro). }
  split; [split|].
  - apply nodup_check. reflexivity.
  - intros mf sub [E|[E|[E|[]]]]; inversion E; subst; apply nodup_check; reflexivity.
  - split; [lia|]. split.
    + intros mf sub [E|[E|[E|[]]]]; inversion E; subst; split; try discriminate; lia.
    + split.
      * exists ex_head, 1. split; [exists [(0, [ex_head])]; split; [right; right; now left|now left]|].
        split; [apply (R _ (mkctrl 1 0 0)); vm_compute; reflexivity|]. split; [vm_compute; lia|].
        intros B. specialize (B "e"%char). vm_compute in B. specialize (B (or_introl eq_refl)). discriminate B.
      * split.
        -- intros mt ls (sub & [E|[E|[E|[]]]] & J); inversion E; subst; destruct J as [J|[]]; inversion J; reflexivity.
        -- split.
           ++ exists 3, 1, [ex_l1; ex_l2]. split; [lia|]. exists [(2, [ex_l3]); (1, [ex_l1; ex_l2])]. split; [right; now left|right; now left].
           ++ intros mf mt ls Nz (sub & [E|[E|[E|[]]]] & J); inversion E; subst; [| |contradiction].
              ** destruct J as [J|[]]; inversion J; subst. split; [lia|]. split; [discriminate|].
                 constructor; [|constructor]. split; [apply (R _ (mkctrl 125 33 1)); vm_compute; reflexivity|vm_compute; lia].
              ** destruct J as [J|[J|[]]]; inversion J; subst; (split; [lia|]; split; [discriminate|]).
                 --- constructor; [|constructor]. split; [apply (R _ (mkctrl 125 3 2)); vm_compute; reflexivity|vm_compute; lia].
                 --- constructor; [|constructor; [|constructor]]; (split; [apply (R _ (mkctrl 125 3 1)); vm_compute; reflexivity|vm_compute; lia]).
Qed.

Definition get {A} (d : A) (r : result A) : A := match r with Ok x => x | Err _ => d end.
Definition ex_d : mfdic (list str) := Eval vm_compute in get [] (split_sections default_ro ex_tape).

Lemma no_section_refuted :
  (exists lines, write_tape ex_recipe default_ro default_wo false None None (raw_dict [(0, [(0, [ex_head])])]) = Ok lines /\
     split_sections default_ro lines = Err UnexpectedControlRecordError) /\
  (exists l1 l2, write_tape ex_recipe default_ro default_wo false None None (raw_dict []) = Ok [l1; l2] /\
     split_sections default_ro [l1; l2] = Ok [(0, [(0, [l1])])]).
Proof.
  split.
  - exists (get [] (write_tape ex_recipe default_ro default_wo false None None (raw_dict [(0, [(0, [ex_head])])]))).
    split; vm_compute; reflexivity.
  - exists (get [] (do l <- write_tape ex_recipe default_ro default_wo false None None (raw_dict []); get_line l 0)).
    exists (get [] (do l <- write_tape ex_recipe default_ro default_wo false None None (raw_dict []); get_line l 1)).
    split; vm_compute; reflexivity.
Qed.

Definition ex_two : list str :=
  [ex_head; ex_line $"a" 125 3 1; ex_line $"" 125 3 0; ex_line $"" 125 0 0; ex_line $"" 0 0 0;
   ex_line $"b" 128 3 1; ex_line $"" 128 3 0; ex_line $"" 128 0 0; ex_line $"" 0 0 0; ex_line $"" (-1) 0 0].
Lemma one_material_refuted : exists lines d l l' mat mat',
  split_sections default_ro lines = Ok d /\ holds d 3 1 [l; l'] /\
  carries 11 l mat 3 1 /\ carries 11 l' mat' 3 1 /\ mat <> mat'.
Proof.
  exists ex_two, (get [] (split_sections default_ro ex_two)), (ex_line $"a" 125 3 1), (ex_line $"b" 128 3 1), 125, 128.
  split; [vm_compute; reflexivity|]. split; [|split; [|split; [|lia]]].
  - exists [(1, [ex_line $"a" 125 3 1; ex_line $"b" 128 3 1])]. split; [|now left]. right; left. vm_compute. reflexivity.
  - apply (carries_iff default_ro). vm_compute. reflexivity.
  - apply (carries_iff default_ro). vm_compute. reflexivity.
Qed.

Lemma accepted_example : strict default_ro /\ length ex_tape = 12%nat /\
  exists d, split_sections default_ro ex_tape = Ok d /\ holds d 3 1 (firstn 2 (skipn 1 ex_tape)).
Proof.
  split; [split; [|split]; reflexivity|]. split; [vm_compute; reflexivity|]. exists ex_d. split; [vm_compute; reflexivity|].
  exists [(1, firstn 2 (skipn 1 ex_tape)); (2, firstn 1 (skipn 4 ex_tape))]. split; [|now left]. right; left. vm_compute. reflexivity.
Qed.

(** *** Only the sections of the dictionary matter *)

Definition fitsb (c : ctrl) : bool :=
  (-1000 <? MAT c) && (MAT c <? 10000) && ((-10 <? MF c) && (MF c <? 100)) && ((-100 <? MT c) && (MT c <? 1000)).
Lemma fitsb_iff c : fitsb c = true <-> ctrl_fits c.
Proof. unfold fitsb, ctrl_fits. rewrite !andb_true_iff, !Z.ltb_lt. tauto. Qed.
Section Fitting.
  Context {D : Type}.
  Variable rr : Z -> Z -> D -> result (list str * ctrl).
  Definition fitting (mf mt : Z) (x : D) : result (list str * ctrl) :=
    match rr mf mt x with
    | Ok (ls, c) => if fitsb c then Ok (ls, c) else Err KeyError
    | Err e => Err e
    end.
  Lemma fitting_ok mf mt x ls c : fitting mf mt x = Ok (ls, c) -> rr mf mt x = Ok (ls, c) /\ ctrl_fits c.
  Proof.
    unfold fitting. destruct (rr mf mt x) as [[l q]|]; [|discriminate]. destruct (fitsb q) eqn:F; [|discriminate]. intros H. injection H as <- <-. split; [reflexivity|now apply fitsb_iff].
  Qed.
  Variables (ro : ropts) (wo : wopts) (zab : bool) (exc inc : selection).
  Definition fit_here (mf mt : Z) (s : section D) : Prop := forall x ls c, s = Parsed x -> rr mf mt x = Ok (ls, c) -> ctrl_fits c.
  Lemma fitting_section mf mt s : fit_here mf mt s -> write_section fitting ro wo zab mf mt s = write_section rr ro wo zab mf mt s.
  Proof.
    intros F. destruct s as [ls|x]; [reflexivity|]. cbn [write_section]. unfold fitting. destruct (rr mf mt x) as [[l q]|] eqn:E; [|reflexivity].
    now rewrite (proj2 (fitsb_iff q) (F x l q eq_refl E)).
  Qed.
  Lemma fitting_mts mf mts : (forall mt s, In (mt, s) mts -> fit_here mf mt s) -> forall cur, write_mts fitting ro wo zab exc inc mf mts cur = write_mts rr ro wo zab exc inc mf mts cur.
  Proof.
    induction mts as [|[mt s] mts IH]; intros F cur; cbn [write_mts]; [reflexivity|]. assert (G : forall t q, In (t, q) mts -> fit_here mf t q) by (intros t q I; apply F; now right).
    destruct (should_skip_section mf mt exc inc); [now apply IH|]. rewrite fitting_section by (apply F; now left).
    destruct (write_section rr ro wo zab mf mt s) as [[ls c]|]; cbn [bind]; [|reflexivity]. now rewrite IH.
  Qed.
  Lemma fitting_tape d : (forall mf mt s, holds d mf mt s -> fit_here mf mt s) -> write_tape fitting ro wo zab exc inc d = write_tape rr ro wo zab exc inc d.
  Proof.
    intros F. assert (G : forall mf mts mt s, In (mf, mts) (zsort d) -> In (mt, s) mts -> fit_here mf mt s).
    { intros mf mts mt s I J. apply F. exists mts. split; [|exact J]. apply (Permutation.Permutation_in _ (zsort_perm d)). exact I. }
    unfold write_tape. enough (E : write_mfs fitting ro wo zab exc inc (zsort d) = write_mfs rr ro wo zab exc inc (zsort d)) by (unfold mfdic, mtdic in *; now rewrite E).
    induction (zsort d) as [|[mf mts] l IH]; cbn [write_mfs]; [reflexivity|]. rewrite fitting_mts.
    - destruct (write_mts rr ro wo zab exc inc mf (zsort mts) None) as [[ls cur]|]; cbn [bind]; [|reflexivity].
      destruct (match cur with Some c => _ | None => _ end); cbn [bind]; [|reflexivity]. rewrite IH; [reflexivity|]. intros f ms t s I. apply (G f). now right.
    - intros mt s I. apply (G mf mts); [now left|]. apply (Permutation.Permutation_in _ (zsort_perm mts)). exact I.
  Qed.
  Lemma fitting_output mf x s c : section_output fitting ro wo mf x s c -> section_output rr ro wo mf x s c.
  Proof.
    intros (st & H). exists st. destruct x as [ls|d]; [exact H|]. destruct H as (ls & R & H). exists ls. split; [|exact H]. now apply fitting_ok in R.
  Qed.
  Lemma fitting_skeleton d t : skeleton fitting ro wo exc inc d t -> skeleton rr ro wo exc inc d t.
  Proof.
    intros (A1 & A2 & A3 & A4 & A5 & A6 & A7 & A8). split; [exact A1|]. split; [exact A2|]. split; [|split; [exact A4|split; [exact A5|split; [|split; assumption]]]].
    - intros mt out I. destruct (A3 mt out I) as (x & H & st & O). exists x. split; [exact H|]. exists st. destruct x as [ls|d0]; [exact O|].
      destruct O as (ls & c & R & O). exists ls, c. split; [|exact O]. now apply fitting_ok in R.
    - eapply Forall_impl; [|exact A6]. intros f (B1 & B2 & B3 & pre & s & x & c & B4 & B5 & B6 & B7). split; [exact B1|]. split; [exact B2|]. split.
      + intros s0 I. destruct (B3 s0 I) as (x0 & c0 & H0 & O0). exists x0, c0. split; [exact H0|now apply fitting_output].
      + exists pre, s, x, c. split; [exact B4|]. split; [exact B5|]. split; [now apply fitting_output|exact B7].
  Qed.
End Fitting.

Lemma write_skeleton_thm {D} (rr : Z -> Z -> D -> result (list str * ctrl)) ro wo zab exc inc d lines :
  field_width wo -> r_width ro = w_width wo ->
  (forall mf mt x ls c, holds d mf mt (Parsed x) -> rr mf mt x = Ok (ls, c) -> ctrl_fits c) ->
  is_dict2 d -> (forall mf sub, In (mf, sub) d -> 0 <= mf) ->
  write_tape rr ro wo zab exc inc d = Ok lines ->
  exists t, lines = written_lines t /\ skeleton rr ro wo exc inc d t.
Proof.
  intros W Rw Rf Dd Pos H. rewrite <- (fitting_tape rr) in H by (intros mf mt s Hs x ls c -> R; exact (Rf mf mt x ls c Hs R)).
  assert (F : forall mf mt x ls c, fitting rr mf mt x = Ok (ls, c) -> ctrl_fits c) by (intros mf mt x ls c R; now apply fitting_ok in R).
  assert (K : exists t, lines = written_lines t /\ skeleton (fitting rr) ro wo exc inc d t) by (eapply write_skeleton; eauto).
  destruct K as (t & E & K). exists t. split; [exact E|now apply fitting_skeleton].
Qed.

Lemma written_example :
  write_tape ex_recipe default_ro default_wo false None None (raw_dict ex_dict) = Ok ex_tape /\
  map (fun l => skipn 66 l) ex_tape =
  [ $"   1 0  0    0"; $" 125 3  1    1"; $" 125 3  1    2"; $" 125 3  099999"; $" 125 3  2    1"; $" 125 3  099999";
    $" 125 0  0    0"; $" 12533  1    1"; $" 12533  099999"; $" 125 0  0    0"; $"   0 0  0    0"; $"  -1 0  0    0" ].
Proof. split; vm_compute; reflexivity. Qed.

Lemma write_width {D} (rr : Z -> Z -> D -> result (list str * ctrl)) ro wo zab exc inc d lines :
  field_width wo -> r_width ro = w_width wo ->
  (forall mf mt x ls c, holds d mf mt (Parsed x) -> rr mf mt x = Ok (ls, c) -> ctrl_fits c) ->
  is_dict2 d -> (forall mf sub, In (mf, sub) d -> 0 <= mf) ->
  (forall mf mt ls, holds d mf mt (Raw ls) -> long_lines wo ls) ->
  (forall mt x ls c, holds d 0 mt (Parsed x) -> rr 0 mt x = Ok (ls, c) -> long_lines wo ls) ->
  (forall mf mt x ls l c, mf <> 0 -> holds d mf mt (Parsed x) -> rr mf mt x = Ok (ls ++ [l], c) ->
     long_lines wo ls /\ length l = line_width wo) ->
  write_tape rr ro wo zab exc inc d = Ok lines ->
  Forall (fun l => length l = line_width wo) lines.
Proof.
  intros W Rw Rf Dd Pos H1 H2 H3 H. destruct (write_skeleton_thm rr ro wo zab exc inc d lines W Rw Rf Dd Pos H) as (t & -> & Sk).
  eapply written_widths; eauto.
Qed.

Lemma width_example : line_width default_wo = 80%nat /\ ex_tape <> [] /\
  (forall mf mt ls, holds (raw_dict (D := unit) ex_dict) mf mt (Raw ls) -> long_lines default_wo ls).
Proof.
  split; [reflexivity|]. split; [vm_compute; discriminate|]. intros mf mt ls H. apply raw_holds in H as (ls' & E & H). inversion E; subst ls'.
  destruct verbatim_example as (_ & _ & _ & V). destruct V as (Dd & _ & _ & (h & hm & Hh & _ & Lh & _) & H0 & _ & Vs).
  destruct (Z.eq_dec mf 0) as [->|Nz].
  - rewrite (H0 _ _ H) in H. rewrite (holds_fun _ _ _ _ _ Dd H Hh). constructor; [exact Lh|constructor].
  - destruct (Vs mf mt ls Nz H) as (_ & _ & F). eapply Forall_impl; [|exact F]. intros l [_ L]. exact L.
Qed.

Lemma short_line_refuted : exists lines l,
  write_tape ex_recipe default_ro default_wo false None None (raw_dict [(0, [(0, [ex_head])]); (3, [(1, [ex_l1; $"short"])])]) = Ok lines /\
  In l lines /\ length l = 10%nat.
Proof.
  exists (get [] (write_tape ex_recipe default_ro default_wo false None None (raw_dict [(0, [(0, [ex_head])]); (3, [(1, [ex_l1; $"short"])])]))).
  exists $"short    2". split; [vm_compute; reflexivity|]. split; [|reflexivity]. vm_compute. right. right. now left.
Qed.

Lemma write_numbers {D} (rr : Z -> Z -> D -> result (list str * ctrl)) ro wo zab exc inc d lines :
  field_width wo -> r_width ro = w_width wo ->
  (forall mf mt x ls c, holds d mf mt (Parsed x) -> rr mf mt x = Ok (ls, c) -> ctrl_fits c) ->
  is_dict2 d -> (forall mf sub, In (mf, sub) d -> 0 <= mf) ->
  write_tape rr ro wo zab exc inc d = Ok lines ->
  exists t, lines = written_lines t /\
    (forall mt out, In (mt, out) (wr_head t) -> exists ls start, first_number (w_width wo) ls start /\ numbered wo start ls out) /\
    (forall f s, In f (wr_files t) -> In s (f_secs f) ->
       exists ls start, first_number (w_width wo) ls start /\ numbered wo start ls (s_body s)) /\
    (forall f s ls, In f (wr_files t) -> In s (f_secs f) -> holds d (f_mf f) (s_mt s) (Raw ls) ->
       exists mat mf, end_line ro wo $"99999" (s_send s) mat mf) /\
    (forall f, In f (wr_files t) -> exists mat, end_line ro wo $"    0" (f_fend f) mat 0) /\
    end_line ro wo $"    0" (wr_mend t) 0 0 /\ end_line ro wo $"    0" (wr_tend t) (-1) 0.
Proof.
  intros W Rw Rf Dd Pos H. destruct (write_skeleton_thm rr ro wo zab exc inc d lines W Rw Rf Dd Pos H) as (t & E & Sk).
  exists t. split; [exact E|]. destruct Sk as (_ & _ & Oh & _ & _ & Of & Me & Te). rewrite Forall_forall in Of.
  split; [|split; [|split; [|split; [|split; assumption]]]].
  - intros mt out I. destruct (Oh mt out I) as ([rl|x] & _ & st & O).
    + exists rl, st. tauto.
    + destruct O as (ls & c & _ & Fn & Nu). eauto.
  - intros f s If Is. destruct (Of f If) as (_ & _ & Hs & _). destruct (Hs s Is) as ([rl|x] & c & _ & st & O).
    + exists rl, st. tauto.
    + destruct O as (ls & _ & Fn & Nu). eauto.
  - intros f s ls If Is Hr. destruct (Of f If) as (_ & _ & Hs & _). destruct (Hs s Is) as (x & c & Hx & st & O).
    rewrite (holds_fun d _ _ _ _ Dd Hx Hr) in O. exists (MAT c), (MF c). tauto.
  - intros f If. destruct (Of f If) as (_ & _ & _ & (pre & s & x & c & _ & _ & _ & El)). eauto.
Qed.

Lemma numbers_wrap wo ls out l l' : w_linenum wo = true -> numbered wo 1 ls out ->
  nth_error ls (Z.to_nat 99998) = Some l -> nth_error ls (Z.to_nat 99999) = Some l' ->
  nth_error out (Z.to_nat 99998) = Some (firstn (6 * w_width wo + 9) l ++ $"99999") /\
  nth_error out (Z.to_nat 99999) = Some (firstn (6 * w_width wo + 9) l' ++ $"    1").
Proof.
  intros Ln [_ N] H1 H2. apply N in H1. apply N in H2. rewrite Ln, Z2Nat.id in H1, H2 by lia. split.
  - refine (eq_trans H1 _). do 2 f_equal.
  - refine (eq_trans H2 _). do 2 f_equal.
Qed.

Lemma parse_selection_thm {P D} (pr : P -> Z -> Z -> list str -> result D * P)
    has ro wo nofail exc inc p lines d p' :
  field_width wo -> r_width ro = w_width wo ->
  parse_tape pr has ro wo nofail exc inc p lines = (Ok d, p') ->
  exists d0, split_sections ro lines = Ok d0 /\ (is_dict2 d0 -> is_dict2 d) /\
    (forall mf mt ls, holds d0 mf mt ls ->
       exists x, holds d mf mt x /\ section_parsed pr has ro wo nofail exc inc mf mt ls x) /\
    (forall mf mt x, holds d mf mt x ->
       exists ls, holds d0 mf mt ls /\ section_parsed pr has ro wo nofail exc inc mf mt ls x).
Proof. intros W Rw H. eapply parse_selection; eauto. Qed.

Lemma selection_example :
  parse_tape ex_parse (fun _ _ => true) default_ro default_wo true (Some [SMf 0; SMfMt 3 2; SMf 33]) None tt ex_tape =
    (Ok [(0, [(0, Raw [nth 0 ex_tape []])]); (3, [(1, Raw (firstn 3 (skipn 1 ex_tape))); (2, Raw [nth 4 ex_tape []])]);
         (33, [(1, Raw [nth 7 ex_tape []])])], tt) /\
  only_selected None (Some [SMfMt 3 1; SMf 33]) [(3, [(2, Raw [ex_l3]); (1, Parsed tt)]); (33, [(1, Parsed tt)]); (0, [(0, Raw [ex_head])])]
    [(3, [(1, Parsed tt)]); (33, [(1, Parsed tt)]); (0, [])].
Proof.
  split; [vm_compute; reflexivity|].
  assert (S : forall mf mt b, should_skip_section mf mt None (Some [SMfMt 3 1; SMf 33]) = b ->
    if b then ~ selected None (Some [SMfMt 3 1; SMf 33]) mf mt else selected None (Some [SMfMt 3 1; SMf 33]) mf mt).
  { intros mf mt [|] H; [intros X; apply selected_iff in X; congruence|now apply selected_iff]. }
  unfold only_selected. constructor; [|constructor; [|constructor; [|constructor]]]; (split; [reflexivity|]); cbn [fst snd].
  - apply kept_drop; [apply (S 3 2 true eq_refl)|]. apply kept_keep; [apply (S 3 1 false eq_refl)|]. constructor.
  - apply kept_keep; [apply (S 33 1 false eq_refl)|]. constructor.
  - apply kept_drop; [apply (S 0 0 true eq_refl)|]. constructor.
Qed.

Definition ex_failed : mfdic (section unit) := Eval vm_compute in
  get [] (fst (parse_tape ex_parse (fun _ _ => true) default_ro default_wo true None None tt ex_tape)).
Lemma written_again_refuted : exists d lines,
  parse_tape ex_parse (fun _ _ => true) default_ro default_wo true None None tt ex_tape = (Ok d, tt) /\
  write_tape ex_recipe default_ro default_wo false None None d = Ok lines /\
  split_sections default_ro lines = Err UnexpectedControlRecordError.
Proof.
  exists ex_failed, (get [] (write_tape ex_recipe default_ro default_wo false None None ex_failed)).
  split; [|split]; vm_compute; reflexivity.
Qed.

Definition is_end (ro : ropts) (l : str) : bool :=
  negb (is_blank l) && match read_send ro [l] 0 with Ok _ => true | Err _ => false end.
Lemma ends_filtered ro : forall l, ends_dropped ro l (filter (fun x => negb (is_end ro x)) l).
Proof.
  induction l as [|x l IH]; cbn [filter]; [constructor|]. destruct (is_end ro x) eqn:E; cbn [negb]; [|now constructor].
  unfold is_end in E. apply andb_true_iff in E as [B E]. destruct (read_send ro [x] 0) as [y|] eqn:R; [|discriminate].
  destruct (proj1 (read_send_iff ro x) (ex_intro _ y R)) as (z1 & z2 & z3 & z4 & z5 & z6 & mat & mf & C).
  apply (ed_drop ro x l _ mat mf); [|exact IH]. split; [|split; [exact C|tauto]].
  intros Bl. apply blank_iff in Bl. rewrite Bl in B. discriminate B.
Qed.
Lemma not_blank_check l : is_blank l = false -> ~ blank l.
Proof. intros H B. apply blank_iff in B. congruence. Qed.

Lemma lenient_example : exists d l0 rest rest' rest'', ex_tape = l0 :: rest /\ split_sections default_ro (l0 :: rest) = Ok d /\
  ~ blank l0 /\ blank_inserted rest rest' /\ length rest' = 13%nat /\
  Forall (fun l => ~ blank l) (l0 :: rest) /\ ends_dropped default_ro rest rest'' /\ length rest'' = 4%nat.
Proof.
  exists ex_d, (hd [] ex_tape), (tl ex_tape), (hd [] (tl ex_tape) :: $"   " :: tl (tl ex_tape) ++ [ [] ]),
    (filter (fun x => negb (is_end default_ro x)) (tl ex_tape)).
  split; [vm_compute; reflexivity|]. split; [vm_compute; reflexivity|]. split; [apply not_blank_check; vm_compute; reflexivity|].
  split.
  { replace (tl ex_tape) with (hd [] (tl ex_tape) :: tl (tl ex_tape)) at 1 by (vm_compute; reflexivity).
    apply bi_keep. apply bi_ins; [apply blank_iff; reflexivity|].
    generalize (tl (tl ex_tape)). intros l. induction l; cbn [app]; [apply bi_ins; [intros c []|constructor]|now apply bi_keep]. }
  split; [vm_compute; reflexivity|]. split.
  { assert (F : forall l, forallb (fun x => negb (is_blank x)) l = true -> Forall (fun x => ~ blank x) l).
    { intros l. rewrite forallb_forall, Forall_forall. intros H x I. apply not_blank_check. apply negb_true_iff. auto. }
    apply F. vm_compute. reflexivity. }
  split; [apply ends_filtered|vm_compute; reflexivity].
Qed.

Definition ex_blank : mfdic (list str) := Eval vm_compute in get [] (split_sections (ignore_blank default_ro) ($"  " :: ex_tape)).
Lemma leading_blank_refuted : exists d d', split_sections default_ro ex_tape = Ok d /\
  split_sections (ignore_blank default_ro) ($"  " :: ex_tape) = Ok d' /\
  holds d' 0 0 [ $"  " ] /\ ~ holds d 0 0 [ $"  " ].
Proof.
  exists ex_d, ex_blank.
  split; [vm_compute; reflexivity|]. split; [vm_compute; reflexivity|]. split.
  - exists [(0, [ $"  " ])]. split; [left; vm_compute; reflexivity|now left].
  - intros (sub & [E|[E|[E|[]]]] & J); inversion E; subst; destruct J as [J|[]]; inversion J.
Qed.

Lemma trailing_blank_refuted : exists d, split_sections default_ro (ex_tape ++ [ $"  " ]) = Ok d /\
  split_sections (ignore_send default_ro) (ex_tape ++ [ $"  " ]) = Err BlankLineError.
Proof. exists ex_d. split; vm_compute; reflexivity. Qed.

Lemma no_material_refuted : exists tend d, split_sections default_ro [ex_head; tend] = Ok d /\
  split_sections (ignore_tpid default_ro) [tend] <> Ok [].
Proof.
  exists (ex_line [] (-1) 0 0), (get [] (split_sections default_ro [ex_head; ex_line [] (-1) 0 0])).
  split; [vm_compute; reflexivity|]. vm_compute. discriminate.
Qed.
