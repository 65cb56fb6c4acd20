(** The directory and the file that is written with it (C43). *)
From Coq Require Import Ascii String ZArith Bool Lia List Sorted.
From Verif Require Import PyBase PyFloat ModelFortran ModelRecords ModelTape SpecTape ProofTape.
From Verif Require Import ModelRecipe ModelInterp ModelRecipes ModelRegistry ModelParser ModelPath ModelTools SpecInterp SpecPath SpecTools.
From Verif Require Import SpecFields SpecLibm SpecFile ProofTapeWrite ProofTapeParse ProofPyBase ProofInterpSec ProofInterpMap ProofInterpWrite ProofFile ProofFile2 ProofTools ProofDesc ProofDir ProofDirCount.
Import ListNotations.
Open Scope Z_scope.

Lemma output_length {D} (rr : Z -> Z -> D -> result (list str * ctrl)) ro wo mf x s c s' c' :
  s_mt s = s_mt s' -> section_output rr ro wo mf x s c -> section_output rr ro wo mf x s' c' -> length (s_body s) = length (s_body s').
Proof.
  intros E (st & A) (st' & B). destruct x as [ls|d].
  - destruct A as [[A _] _]. destruct B as [[B _] _]. now rewrite A, B.
  - destruct A as (l & A1 & _ & A2 & _). destruct B as (l' & B1 & _ & B2 & _). rewrite E, B1 in A1. injection A1 as A1 _. apply app_inj_tail in A1 as [-> _]. now rewrite A2, B2.
Qed.
Lemma holds_same {A} (m : mfdic A) mf mt x y : is_dict2 m -> holds m mf mt x -> holds m mf mt y -> x = y.
Proof. intros D H1 H2. apply (holds_lookup m mf mt _ D) in H1, H2. congruence. Qed.

Section File.
  Variables (p : parser) (blank : bool) (o : popts).
  Notation skel := (skeleton (write_one p blank o) (p_ro p) (p_wo p) None None).
  Lemma selected_all mf mt : selected None None mf mt.
  Proof. split; [exact Logic.I|intros l X; discriminate X] || (unfold selected; cbn; tauto). Qed.

  Lemma skel_section d t mf mt : skel d t -> mf <> 0 -> (exists ls, written_section t mf mt ls) <-> exists x, holds d mf mt x.
  Proof.
    intros (_ & _ & _ & _ & K & _) N. specialize (K mf mt N). split.
    - intros (ls & f & s & A & B & C & E & _). apply K. eauto 6.
    - intros H. destruct (proj2 K (conj (selected_all mf mt) H)) as (f & s & A & B & C & E). exists (s_body s), f, s. auto.
  Qed.
  Lemma skel_output d t mf mt ls : skel d t -> written_section t mf mt ls -> exists x s c, holds d mf mt x /\ s_mt s = mt /\ ls = s_body s /\ section_output (write_one p blank o) (p_ro p) (p_wo p) mf x s c.
  Proof.
    intros (_ & _ & _ & _ & _ & F & _) (f & s & A & <- & C & <- & ->). rewrite Forall_forall in F. destruct (F f A) as (_ & _ & S & _). destruct (S s C) as (x & c & H & O). eauto 8.
  Qed.

  Theorem rewritten d t m old nwd new d2 t2 :
    is_dict2 d -> skel d t -> holds d 1 451 (Parsed old) ->
    dget (KStr $"NWD") old = Some (VNum (NInt nwd)) -> proper_directory old ->
    (find_recipe (p_recipes p) 1 451 = Some (with_send mf1_mt451) /\ 5 <= nwd) \/ (find_recipe (p_recipes p) 1 451 = Some (with_send pendf_mf1_mt451) /\ 0 <= nwd) ->
    is_dict2 m -> (forall mf mt ls, mf <> 0 -> (holds m mf mt ls <-> written_section t mf mt ls)) ->
    update_directory m old = Ok new -> with_section 1 451 new d d2 -> skel d2 t2 ->
    forall mf mt nc, mf <> 0 -> mt <> 0 ->
      (exists i md, entry new i mf mt nc md) <-> (exists ls, written_section t2 mf mt ls /\ nc = Z.of_nat (length ls)).
  Proof.
    intros D K H0 NW P Rec DM HM U (D2 & H2) K2.
    destruct (skel_section d t 1 451 K) as [_ X]; [lia|]. destruct (X (ex_intro _ _ H0)) as (l0 & W0). clear X.
    assert (E0 : exists ls, holds m 1 451 ls) by (exists l0; apply HM; [lia|exact W0]).
    destruct (updated m old nwd DM E0 NW P) as (new' & U' & DO & _). rewrite U in U'. injection U' as <-.
    destruct DO as (nwd' & nxc & NW' & NX & I1 & I2 & I3 & I4 & I5 & I6 & I7). rewrite NW in NW'. injection NW' as <-.
    assert (NWn : dget (KStr $"NWD") new = Some (vint nwd)).
    { rewrite I7; [exact NW|]. intros X. cbn [map In] in X. repeat (destruct X as [X|X]; [discriminate X|]). exact X. }
    assert (NP : 0 <= nxc).
    { destruct (proj2 (I2 1 451)) as (i & nc & md & E); [split; [lia|]; split; [lia|exact E0]|]. assert (1 <= i <= nxc) by (apply I1; eauto). lia. }
    (* the length of a section in the second file *)
    assert (Len : forall mf mt ls, mf <> 0 -> mt <> 0 -> written_section t2 mf mt ls -> forall i nc md, entry new i mf mt nc md -> nc = Z.of_nat (length ls)).
    { intros mf mt ls N1 N2 W i nc md E. destruct (skel_output d2 t2 mf mt ls K2 W) as (x & s & c & Hx & <- & -> & Ox). apply H2 in Hx as [[Q ->]|[Q Hx]].
      - injection Q as -> Q. rewrite Q in E. rewrite (I4 _ _ _ E). destruct Ox as (st & ls & R & _ & L & _). rewrite L. rewrite Q in R. unfold write_one in R. destruct Rec as [[Rec B]|[Rec B]]; rewrite Rec in R;
          (destruct (write_recipe _ _ _ _ _ _ _) as [r dd] eqn:WR; cbn [fst] in R; subst r).
        + pose proof (own_count (write_env (p_ro p) (p_wo p) blank (p_depth p)) eq_refl _ _ _ _ _ _ _ _ _ _ nwd nxc (fun s s' => endf6_count (write_env (p_ro p) (p_wo p) blank (p_depth p)) eq_refl s s' nwd nxc) NWn NX WR) as C. rewrite app_length in C. cbn [length] in C. lia.
        + pose proof (own_count (write_env (p_ro p) (p_wo p) blank (p_depth p)) eq_refl _ _ _ _ _ _ _ _ _ _ nwd nxc (fun s s' => pendf_count (write_env (p_ro p) (p_wo p) blank (p_depth p)) eq_refl s s' nwd nxc) NWn NX WR) as C. rewrite app_length in C. cbn [length] in C. lia.
      - destruct (proj2 (skel_section d t mf (s_mt s) K N1) (ex_intro _ _ Hx)) as (l1 & W1). destruct (skel_output d t mf (s_mt s) l1 K W1) as (x1 & s1 & c1 & Hx1 & Es & -> & Ox1).
        rewrite (holds_same d _ _ _ _ D Hx1 Hx) in Ox1. rewrite (I5 i mf (s_mt s) nc md (s_body s1) E Q); [|apply HM; [exact N1|exact W1]].
        f_equal. eapply output_length; [exact Es|exact Ox1|exact Ox]. }
    assert (Has : forall mf mt, mf <> 0 -> (exists x, holds d2 mf mt x) <-> exists x, holds d mf mt x).
    { intros mf mt N. split; intros (x & Hx).
      - apply H2 in Hx as [[Q ->]|[Q Hx]]; [injection Q as -> ->|]; eauto.
      - destruct (Z.eq_dec mf 1) as [->|N1]; [destruct (Z.eq_dec mt 451) as [->|N2]|].
        + exists (Parsed new). apply H2. left. auto.
        + exists x. apply H2. right. split; [congruence|exact Hx].
        + exists x. apply H2. right. split; [congruence|exact Hx]. }
    intros mf mt nc N1 N2. split.
    - intros (i & md & E). destruct (proj1 (I2 mf mt) (ex_intro _ i (ex_intro _ nc (ex_intro _ md E)))) as (_ & _ & ls & Hl).
      apply HM in Hl; [|exact N1]. destruct (proj2 (skel_section d2 t2 mf mt K2 N1)) as (l2 & W2); [apply Has; [exact N1|]; apply (skel_section d t mf mt K N1); eauto|].
      exists l2. split; [exact W2|]. exact (Len mf mt l2 N1 N2 W2 i nc md E).
    - intros (ls & W & ->). destruct (proj2 (I2 mf mt)) as (i & nc & md & E).
      { split; [exact N1|]. split; [exact N2|]. destruct (proj2 (skel_section d t mf mt K N1)) as (l1 & W1); [apply Has; [exact N1|]; apply (skel_section d2 t2 mf mt K2 N1); eauto|].
        exists l1. apply HM; [exact N1|exact W1]. }
      exists i, md. rewrite (Len mf mt ls N1 N2 W i nc md E) in E. exact E.
  Qed.
End File.

(** ** Reading the file again *)

Section Reread.
  Variables (p : parser) (blank : bool) (o : popts).
  Hypothesis W : field_width (p_wo p).
  Hypothesis Rw : r_width (p_ro p) = w_width (p_wo p).
  Hypothesis St : strict (p_ro p).
  Notation body := (bo p blank o).

  Lemma file_split d : whole_file p blank o d -> exists lines m, write p blank None None o d = Ok lines /\ split_sections (p_ro p) lines = Ok m /\ is_dict2 m /\
    (forall mf mt x, holds d mf mt x -> exists ls, holds m mf mt ls /\ length ls = length (body mf mt x)) /\
    (forall mf mt ls, holds m mf mt ls -> exists x, holds d mf mt x /\ length ls = length (body mf mt x)).
  Proof.
    intros WF. destruct (file_verbatim p blank true o d W Rw WF) as (mat & V).
    pose proof (file_alike p blank true o d W Rw WF) as Al.
    destruct (file_written (write_one p blank o) (p_ro p) (p_wo p) blank W Rw body d mat Al V) as (lines & E).
    pose proof E as E0. rewrite (write_bodies (write_one p blank o) (p_ro p) (p_wo p) blank body d Al), (write_raw_any (write_one p blank o) no_recipe) in E0.
    assert (Rf : forall mf mt (x : dict) ls c, @no_recipe dict mf mt x = Ok (ls, c) -> ctrl_fits c) by discriminate.
    destruct (verbatim_reread (D := dict) no_recipe (p_ro p) (p_wo p) blank W Rw Rf mat _ V lines St E0) as (m & E1 & D1 & K1 & K2).
    exists lines, m. split; [exact E|]. split; [exact E1|]. split; [exact D1|]. split.
    - intros mf mt x H. destruct (K1 mf mt (body mf mt x)) as (ls & A & B); [apply bodies_holds; eauto|]. exists ls. split; [exact A|]. symmetry. clear -B. induction B; cbn [length]; congruence.
    - intros mf mt ls H. destruct (K2 mf mt ls H) as (b & Hb & B). apply bodies_holds in Hb as (x & Hx & ->). exists x. split; [exact Hx|]. symmetry. clear -B. induction B; cbn [length]; congruence.
  Qed.

  Theorem rewritten_file d old nwd : whole_file p blank o d -> holds d 1 451 (Parsed old) ->
    dget (KStr $"NWD") old = Some (VNum (NInt nwd)) -> proper_directory old ->
    (find_recipe (p_recipes p) 1 451 = Some (with_send mf1_mt451) /\ 5 <= nwd) \/ (find_recipe (p_recipes p) 1 451 = Some (with_send pendf_mf1_mt451) /\ 0 <= nwd) ->
    exists lines new, write p blank None None o d = Ok lines /\ update_directory_from (p_ro p) lines old = Ok new /\
    forall d2, with_section 1 451 new d d2 -> whole_file p blank o d2 ->
    exists lines2 m, write p blank None None o d2 = Ok lines2 /\ split_sections (p_ro p) lines2 = Ok m /\
    forall mf mt n, mf <> 0 -> mt <> 0 -> (exists i md, entry new i mf mt n md) <-> (exists ls, holds m mf mt ls /\ n = Z.of_nat (length ls)).
  Proof.
    intros WF H0 NW P Rec. destruct (file_split d WF) as (lines & m & E & S & DM & K1 & K2). destruct (K1 1 451 _ H0) as (l0 & L0 & _).
    assert (E0 : exists ls, holds m 1 451 ls) by eauto.
    destruct (updated m old nwd DM E0 NW P) as (new & U & DO & _).
    destruct DO as (nwd' & nxc & NW' & NX & I1 & I2 & I3 & I4 & I5 & I6 & I7). rewrite NW in NW'. injection NW' as <-.
    assert (NWn : dget (KStr $"NWD") new = Some (vint nwd)).
    { rewrite I7; [exact NW|]. intros X. cbn [map In] in X. repeat (destruct X as [X|X]; [discriminate X|]). exact X. }
    assert (NP : 0 <= nxc).
    { destruct (proj2 (I2 1 451)) as (i & nc & md & En); [split; [lia|]; split; [lia|exact E0]|]. assert (1 <= i <= nxc) by (apply I1; eauto). lia. }
    exists lines, new. split; [exact E|]. split; [unfold update_directory_from; rewrite S; exact U|]. intros d2 (D2 & H2) WF2.
    destruct (file_split d2 WF2) as (lines2 & m2 & E2 & S2 & DM2 & Q1 & Q2). exists lines2, m2. split; [exact E2|]. split; [exact S2|].
    assert (Has : forall mf mt, (exists x, holds d2 mf mt x) <-> exists x, holds d mf mt x).
    { intros mf mt. split; intros (x & Hx).
      - apply H2 in Hx as [[Q ->]|[Q Hx]]; [injection Q as -> ->|]; eauto.
      - destruct (Z.eq_dec mf 1) as [->|N1]; [destruct (Z.eq_dec mt 451) as [->|N2]|].
        + exists (Parsed new). apply H2. left. auto.
        + exists x. apply H2. right. split; [congruence|exact Hx].
        + exists x. apply H2. right. split; [congruence|exact Hx]. }
    assert (Len : forall mf mt ls, holds m2 mf mt ls -> forall i nc md, entry new i mf mt nc md -> nc = Z.of_nat (length ls)).
    { intros mf mt ls W2 i nc md En. destruct (Q2 mf mt ls W2) as (x & Hx & ->). pose proof Hx as Hx'. apply H2 in Hx as [[Q ->]|[Q Hx]].
      - injection Q as -> ->. rewrite (I4 _ _ _ En).
        destruct WF2 as (_ & _ & _ & _ & _ & mat & _ & Se). destruct (Se 1 451 _ ltac:(lia) Hx') as (_ & G & R).
        destruct R as (b & b' & bd & send & c & e & FR & Hb & _ & _ & _ & _ & _ & _ & _ & _ & HW & _). unfold bo, write_one. rewrite FR.
        pose proof (ended_write _ _ _ _ _ _ _ _ _ _ Hb HW) as HW'. rewrite HW'. cbn [fst Z.eqb]. rewrite removelast_firstn_len, firstn_length.
        destruct Rec as [[Rec B]|[Rec B]]; rewrite Rec in FR; injection FR as FR; rewrite <- FR in HW'.
        + pose proof (own_count (write_env (p_ro p) (p_wo p) blank (p_depth p)) eq_refl _ _ _ _ _ _ _ _ _ _ nwd nxc (fun s s' => endf6_count (write_env (p_ro p) (p_wo p) blank (p_depth p)) eq_refl s s' nwd nxc) NWn NX HW') as C. unfold str in *. lia.
        + pose proof (own_count (write_env (p_ro p) (p_wo p) blank (p_depth p)) eq_refl _ _ _ _ _ _ _ _ _ _ nwd nxc (fun s s' => pendf_count (write_env (p_ro p) (p_wo p) blank (p_depth p)) eq_refl s s' nwd nxc) NWn NX HW') as C. unfold str in *. lia.
      - destruct (K1 mf mt x Hx) as (l1 & W1 & L1). rewrite <- L1. exact (I5 i mf mt nc md l1 En Q W1). }
    intros mf mt n N1 N2. split.
    - intros (i & md & En). destruct (proj1 (I2 mf mt) (ex_intro _ i (ex_intro _ n (ex_intro _ md En)))) as (_ & _ & ls & Hl).
      destruct (K2 mf mt ls Hl) as (x & Hx & _). destruct (proj2 (Has mf mt) (ex_intro _ x Hx)) as (y & Hy). destruct (Q1 mf mt y Hy) as (l2 & W2 & _).
      exists l2. split; [exact W2|]. exact (Len mf mt l2 W2 i n md En).
    - intros (ls & W2 & ->). destruct (Q2 mf mt ls W2) as (y & Hy & _). destruct (proj1 (Has mf mt) (ex_intro _ y Hy)) as (x & Hx). destruct (K1 mf mt x Hx) as (l1 & W1 & _).
      destruct (proj2 (I2 mf mt)) as (i & nc & md & En); [split; [exact N1|]; split; [exact N2|eauto]|].
      exists i, md. rewrite (Len mf mt ls W2 i nc md En) in En. exact En.
  Qed.
End Reread.

Theorem own_lines en explain o d ls c d' nwd nxc : e_write en = true ->
  dget (KStr $"NWD") d = Some (vint nwd) -> dget (KStr $"NXC") d = Some (vint nxc) -> 0 <= nxc ->
  (5 <= nwd -> write_recipe en explain (with_send mf1_mt451) o 1 451 d = (Ok (ls, c), d') -> Z.of_nat (length (removelast ls)) = 4 + nwd + nxc) /\
  (0 <= nwd -> write_recipe en explain (with_send pendf_mf1_mt451) o 1 451 d = (Ok (ls, c), d') -> Z.of_nat (length (removelast ls)) = 4 + nwd + nxc).
Proof.
  intros EW DW DX N. rewrite removelast_firstn_len, firstn_length. split; intros B H.
  - pose proof (own_count en EW _ _ _ _ _ _ _ _ _ _ nwd nxc (fun s s' => endf6_count en EW s s' nwd nxc) DW DX H) as C. unfold str in *. lia.
  - pose proof (own_count en EW _ _ _ _ _ _ _ _ _ _ nwd nxc (fun s s' => pendf_count en EW s s' nwd nxc) DW DX H) as C. unfold str in *. lia.
Qed.
