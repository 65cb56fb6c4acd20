(** The library of a file (C63). *)
From Coq Require Import Ascii String ZArith Bool Lia List.
From Verif Require Import PyBase PyFloat ModelFortran ModelRecords ModelTape ModelInterp ModelPath ModelTools ModelLibrary.
From Verif Require Import SpecTape SpecInterp SpecPath SpecTools SpecLibrary.
From Verif Require Import ProofPyBase ProofInterpSec ProofTools ProofDesc.
Import ListNotations.
Open Scope Z_scope.

Lemma library_known lib nlib nver lrel : In (lib, (nlib, nver, lrel)) libraries -> library_numbers lib = Some (nlib, nver, lrel, lib).
Proof. intros H. cbn [libraries In] in H. repeat (destruct H as [H|H]; [injection H as <- <- <- <-; reflexivity|]). destruct H. Qed.
Lemma library_some lib nlib nver lrel t : library_numbers lib = Some (nlib, nver, lrel, t) -> t = lib /\ In (lib, (nlib, nver, lrel)) libraries.
Proof.
  unfold library_numbers. intros H.
  repeat match type of H with context [if str_eqb lib ?x then _ else _] => destruct (str_eqb lib x) eqn:?E; [apply str_eqb_eq in E; subst lib; injection H as <- <- <- <-; split; [reflexivity|cbn [libraries In]; tauto]|clear E] end.
  discriminate.
Qed.
Lemma library_unknown lib : ~ known_library lib -> library_numbers lib = None.
Proof.
  intros N. destruct (library_numbers lib) as [[[[a b] c] t]|] eqn:E; [|reflexivity]. apply library_some in E as [_ I]. exfalso. apply N.
  unfold known_library. apply in_map_iff. eexists; split; [|exact I]. reflexivity.
Qed.
Lemma library_length lib : known_library lib -> (4 + length lib <= 22)%nat.
Proof. intros H. cbn in H. repeat (destruct H as [<-|H]; [cbn; lia|]). destruct H. Qed.

Lemma drop_repeat n s : match s with c :: _ => c <> " "%char | [] => True end -> drop_spaces (repeat " "%char n ++ s) = s.
Proof.
  intros H. induction n as [|n IH]; cbn [repeat app drop_spaces].
  - destruct s as [|c r]; cbn [drop_spaces]; [reflexivity|]. destruct (chr_eqb c " "%char) eqn:E; [apply chr_eqb_eq in E; contradiction|reflexivity].
  - rewrite chr_eqb_refl. exact IH.
Qed.
Lemma drop_spec s : exists n, s = repeat " "%char n ++ drop_spaces s.
Proof.
  induction s as [|c r [n IH]]; cbn [drop_spaces]; [exists 0%nat; reflexivity|]. destruct (chr_eqb c " "%char) eqn:E; [|exists 0%nat; reflexivity].
  apply chr_eqb_eq in E as ->. exists (S n). cbn [repeat app]. rewrite IH at 1. reflexivity.
Qed.
Lemma capital_spec c : is_capital c = true <-> In c capitals.
Proof.
  split.
  - intros H. destruct c as [[] [] [] [] [] [] [] []]; vm_compute in H; try discriminate H; cbn; repeat (try (left; reflexivity); right).
  - intros H. cbn in H. repeat (destruct H as [<-|H]; [reflexivity|]). destruct H.
Qed.
Lemma signature_spec s : signature_ok s = true <-> third_line s.
Proof.
  unfold signature_ok, third_line. split.
  - intros H. apply andb_true_iff in H as [P H]. apply str_eqb_eq in P. destruct (drop_spec (skipn 4 s)) as [n E].
    destruct (drop_spaces (skipn 4 s)) as [|c [|d r]]; try discriminate. apply andb_true_iff in H as [C D].
    exists n, c, d, r. split; [rewrite <- (firstn_skipn 4 s), P, E; reflexivity|]. split; [apply capital_spec, C|].
    intros ->. discriminate D.
  - intros (n & c & d & r & -> & C & D). apply andb_true_iff. split; [reflexivity|]. change (skipn 4 ($"----" ++ ?x)) with x.
    rewrite drop_repeat. 2: { intros ->. cbn in C. repeat (destruct C as [C|C]; [discriminate C|]). exact C. }
    apply andb_true_iff. split; [apply capital_spec, C|]. destruct (chr_eqb d " "%char) eqn:E; [apply chr_eqb_eq in E; contradiction|reflexivity].
Qed.

Lemma in_dset k0 v0 (d : dict) k v : unique_keys d -> (In (k, v) (dset k0 v0 d) <-> (k = k0 /\ v = v0) \/ (k <> k0 /\ In (k, v) d)).
Proof.
  unfold unique_keys. induction d as [|[j w] d IH]; cbn [dset map fst In]; intros U.
  - split; [intros [E|[]]; injection E as <- <-; auto|]. intros [[-> ->]|[_ []]]. left. reflexivity.
  - apply NoDup_cons_iff in U as [N U]. destruct (key_eqb k0 j) eqn:E.
    + apply key_eqb_eq in E as ->. cbn [In]. split.
      * intros [E|I]; [injection E as <- <-; auto|]. right. split; [|right; exact I]. intros ->. apply N. change j with (fst (j, v)). apply in_map, I.
      * intros [[-> ->]|[X [E|I]]]; [left; reflexivity|injection E as <- _; contradiction|right; exact I].
    + cbn [In]. rewrite (IH U). split.
      * intros [E'|[X|[X I]]]; [injection E' as <- <-|left; exact X|right; auto]. right. split; [|left; reflexivity]. intros ->. rewrite (proj2 (key_eqb_eq _ _) eq_refl) in E. discriminate.
      * intros [X|[X [E'|I]]]; [right; left; exact X|left; exact E'|right; right; auto].
Qed.

Lemma dset_unique k0 v0 (d : dict) : unique_keys d -> unique_keys (dset k0 v0 d).
Proof.
  unfold unique_keys. induction d as [|[j w] d IH]; cbn [dset map fst]; intros U; [repeat constructor; intros []|].
  apply NoDup_cons_iff in U as [N U]. destruct (key_eqb k0 j) eqn:E; cbn [map fst]; constructor; auto.
  intros X. apply in_map_iff in X as ([k v] & E' & I). cbn [fst] in E'. subst k. apply in_dset in I as [[-> _]|[_ I]]; [|apply N; change j with (fst (j, v)); apply in_map, I|exact U].
  rewrite (proj2 (key_eqb_eq _ _) eq_refl) in E. discriminate.
Qed.
Lemma numbers_other nlib nver lrel m k : ~ In k library_keys -> dget k (set_numbers nlib nver lrel m) = dget k m.
Proof.
  intros N. unfold set_numbers, set_int. cbn [library_keys map In] in N.
  rewrite !dget_dset_other; [reflexivity|..]; intros ->; apply N; auto.
Qed.
Lemma numbers_lib lib nlib nver lrel m : In (lib, (nlib, nver, lrel)) libraries -> numbers_of lib (set_numbers nlib nver lrel m).
Proof.
  intros I. exists nlib, nver, lrel. split; [exact I|]. unfold has_number, set_numbers, set_int.
  split; [rewrite dget_dset_other by discriminate; rewrite dget_dset_other by discriminate; apply dget_dset_same|].
  split; [rewrite dget_dset_other by discriminate; apply dget_dset_same|apply dget_dset_same].
Qed.
Lemma replaced_nth {A} i (x : A) l l' : replaced i x l l' -> forall j y, nth_error l' j = Some y <-> (j = i /\ y = x) \/ (j <> i /\ nth_error l j = Some y).
Proof.
  intros (p & z & q & -> & -> & <-) j y. destruct (Nat.lt_ge_cases j (length p)) as [L|L].
  - rewrite !nth_error_app1 by lia. split; [intros H; right; split; [lia|exact H]|]. intros [[-> _]|[_ H]]; [lia|exact H].
  - rewrite !nth_error_app2 by lia. destruct (j - length p)%nat as [|n] eqn:E.
    + cbn [nth_error]. split; [intros H; injection H as <-; left; split; [lia|reflexivity]|]. intros [[_ ->]|[X _]]; [reflexivity|lia].
    + cbn [nth_error]. split; [intros H; right; split; [lia|exact H]|]. intros [[X _]|[_ H]]; [lia|exact H].
Qed.
Lemma replaced_cut {A} i (x : A) l l' : replaced i x l l' -> l' = firstn i l ++ x :: skipn (S i) l.
Proof.
  intros (p & z & q & -> & -> & <-). rewrite firstn_app, firstn_all, Nat.sub_diag. cbn [firstn]. rewrite app_nil_r.
  change (p ++ z :: q) with (p ++ [z] ++ q). rewrite app_assoc, skipn_app, skipn_all2 by (rewrite app_length; cbn; lia).
  rewrite app_length. cbn [length]. replace (S (length p) - (length p + 1))%nat with 0%nat by lia. reflexivity.
Qed.
Lemma describes_line m l s : describes m l -> nth_error l 2 = Some s -> forall d, dget (KStr $"DESCRIPTION") m = Some (VDict d) -> dget (KInt 3) d = Some (VStr s).
Proof.
  intros (d & D & U & H) N d' D'. rewrite D in D'. injection D' as <-. apply unique_dget; [exact U|]. apply H. exists 2%nat, s. auto.
Qed.
Lemma describes_no_line m l : describes m l -> nth_error l 2 = None -> forall d, dget (KStr $"DESCRIPTION") m = Some (VDict d) -> dget (KInt 3) d = None.
Proof.
  intros (d & D & U & H) N d' D'. rewrite D in D'. injection D' as <-. destruct (dget (KInt 3) d) as [v|] eqn:E; [|reflexivity].
  apply dget_in in E. apply H in E as (i & s & G & K & _). injection K as K. replace i with 2%nat in G by lia. congruence.
Qed.

Lemma set_library_lines lib m l s : known_library lib -> describes m l -> nth_error l 2 = Some s -> third_line s ->
  exists m' s' l', set_library lib m = (Ok tt, m') /\ numbers_of lib m' /\ renamed lib s s' /\ replaced 2 s' l l' /\ describes m' l' /\
    forall k, ~ In k (KStr $"DESCRIPTION" :: library_keys) -> dget k m' = dget k m.
Proof.
  intros K D N T. apply in_map_iff in K as ([lib' [[nlib nver] lrel]] & E & I). cbn [fst] in E. subst lib'.
  assert (LL := library_length lib). specialize (LL ltac:(apply in_map_iff; eexists; split; [|exact I]; reflexivity)).
  assert (D0 := D). destruct D as (d & DD & U & H). assert (L3 := describes_line m l s D0 N d DD).
  set (s' := ljust 22 ($"----" ++ lib) ++ skipn 22 s).
  apply nth_error_split in N as (p & q & -> & Lp).
  exists (dset (KStr $"DESCRIPTION") (VDict (dset (KInt 3) (VStr s') d)) (set_numbers nlib nver lrel m)), s', (p ++ s' :: q).
  assert (R : replaced 2 s' (p ++ s :: q) (p ++ s' :: q)) by (exists p, s, q; auto).
  split; [|split; [|split; [|split; [exact R|split]]]].
  - unfold set_library. rewrite (library_known _ _ _ _ I). rewrite numbers_other by (cbn; intros X; repeat (destruct X as [X|X]; [discriminate X|]); exact X).
    rewrite DD, L3, (proj2 (signature_spec s) T). reflexivity.
  - destruct (numbers_lib lib nlib nver lrel m I) as (a & b & c & Ia & X & Y & Z0). exists a, b, c. split; [exact Ia|]. unfold has_number in *.
    rewrite !dget_dset_other by discriminate. auto.
  - exists (22 - length ($"----" ++ lib))%nat. unfold s', ljust, spaces. rewrite <- !app_assoc. split; [reflexivity|]. change (length ($"----" ++ lib)) with (4 + length lib)%nat. lia.
  - eexists. rewrite dget_dset_same. split; [reflexivity|]. split.
    + apply dset_unique, U.
    + intros k v. rewrite in_dset by exact U. rewrite H. split.
      * intros [[-> ->]|[Nk (i & t & G & -> & ->)]]; [exists 2%nat, s'|exists i, t]; (split; [apply (replaced_nth _ _ _ _ R)|auto]); [auto|]. right. split; [intros ->; apply Nk; reflexivity|exact G].
      * intros (i & t & G & -> & ->). apply (replaced_nth _ _ _ _ R) in G as [[-> ->]|[Ni G]]; [left; auto|]. right. split; [intros E; injection E; lia|]. eauto.
  - intros k Nk. cbn [In] in Nk. rewrite dget_dset_other by (intros ->; apply Nk; auto). apply numbers_other. intros X. apply Nk. auto.
Qed.
Lemma set_library_refused lib m l : describes m l -> (known_library lib -> forall s, nth_error l 2 = Some s -> ~ third_line s) ->
  exists e m', set_library lib m = (Err e, m') /\ describes m' l /\ (forall k, ~ In k library_keys -> dget k m' = dget k m) /\
    (~ known_library lib -> m' = m).
Proof.
  intros D H. destruct (library_numbers lib) as [[[[a b] c] t]|] eqn:E.
  - destruct (library_some _ _ _ _ _ E) as [-> I]. assert (K : known_library lib) by (apply in_map_iff; eexists; split; [|exact I]; reflexivity).
    assert (O := fun k => numbers_other a b c m k).
    assert (Nd : ~ In (KStr $"DESCRIPTION") library_keys) by (cbn; intros X; repeat (destruct X as [X|X]; [discriminate X|]); exact X).
    assert (X : exists e, set_library lib m = (Err e, set_numbers a b c m)).
    { unfold set_library. rewrite E. rewrite (O _ Nd). assert (D0 := D). destruct D as (d & DD & U & Hd). rewrite DD.
      destruct (nth_error l 2) as [s|] eqn:N.
      - rewrite (describes_line m l s D0 N d DD). destruct (signature_ok s) eqn:S; [apply signature_spec in S; exfalso; exact (H K s eq_refl S)|]. eauto.
      - rewrite (describes_no_line m l D0 N d DD). eauto. }
    destruct X as [e X]. exists e, (set_numbers a b c m). split; [exact X|]. split; [|split; [exact O|intros Q; contradiction]].
    destruct D as (d & DD & U & Hd). exists d. rewrite (O _ Nd). auto.
  - exists TypeError, m. unfold set_library. rewrite E. repeat split; auto.
Qed.

(** ** Twice *)

Lemma renamed_third lib s s' : known_library lib -> renamed lib s s' -> third_line s'.
Proof.
  intros K (n & -> & _). exists 0%nat. cbn in K. repeat (destruct K as [<-|K]; [do 3 eexists; split; [reflexivity|split; [cbn; tauto|discriminate]]|]). destruct K.
Qed.
Lemma renamed_again lib1 lib2 s s1 s2 : renamed lib1 s s1 -> renamed lib2 s1 s2 -> renamed lib2 s s2.
Proof.
  intros (n & -> & N) (n2 & -> & N2). exists n2. split; [|exact N2]. do 3 f_equal.
  assert (L : length ($"----" ++ lib1 ++ repeat " "%char n) = 22%nat) by (rewrite !app_length, repeat_length; change (length $"----") with 4%nat; lia).
  replace ($"----" ++ lib1 ++ repeat " "%char n ++ skipn 22 s) with (($"----" ++ lib1 ++ repeat " "%char n) ++ skipn 22 s) by (rewrite <- !app_assoc; reflexivity).
  rewrite skipn_app, L, skipn_all2 by (rewrite L; apply le_n). reflexivity.
Qed.
Lemma renamed_length lib s s' : renamed lib s s' -> length s' = Nat.max 22 (length s).
Proof.
  intros (n & -> & N). rewrite !app_length, repeat_length, skipn_length. change (length $"----") with 4%nat. lia.
Qed.

Lemma set_numbers_lib a b c a' b' c' m k : In k library_keys -> dget k (set_numbers a b c m) = dget k (set_numbers a b c (set_numbers a' b' c' m)).
Proof.
  intros H. unfold set_numbers, set_int. cbn [library_keys map In] in H.
  destruct H as [<-|[<-|[<-|[]]]]; repeat (rewrite dget_dset_same || rewrite dget_dset_other by discriminate); reflexivity.
Qed.
Lemma set_library_form lib m l s d a b c : In (lib, (a, b, c)) libraries -> describes m l -> nth_error l 2 = Some s -> third_line s ->
  dget (KStr $"DESCRIPTION") m = Some (VDict d) ->
  set_library lib m = (Ok tt, dset (KStr $"DESCRIPTION") (VDict (dset (KInt 3) (VStr (ljust 22 ($"----" ++ lib) ++ skipn 22 s)) d)) (set_numbers a b c m)).
Proof.
  intros I D N T DD. unfold set_library. rewrite (library_known _ _ _ _ I). rewrite numbers_other by (cbn; intros X; repeat (destruct X as [X|X]; [discriminate X|]); exact X).
  rewrite DD, (describes_line m l s D N d DD), (proj2 (signature_spec s) T). reflexivity.
Qed.
Lemma dset_twice k v w d : dset k v (dset k w d) = dset k v d.
Proof.
  induction d as [|[j x] d IH]; cbn [dset]; [rewrite (proj2 (key_eqb_eq _ _) eq_refl); reflexivity|].
  destruct (key_eqb k j) eqn:E; cbn [dset]; rewrite E; [reflexivity|]. rewrite IH. reflexivity.
Qed.
Lemma renamed_ljust lib s s' : renamed lib s s' -> s' = ljust 22 ($"----" ++ lib) ++ skipn 22 s.
Proof.
  intros (n & -> & N). unfold ljust, spaces. rewrite <- !app_assoc. do 4 f_equal. change (length ($"----" ++ lib)) with (4 + length lib)%nat. lia.
Qed.
Lemma set_library_twice lib1 lib2 m l s : known_library lib1 -> known_library lib2 -> describes m l -> nth_error l 2 = Some s -> third_line s ->
  exists m1 m12 m2, set_library lib1 m = (Ok tt, m1) /\ set_library lib2 m1 = (Ok tt, m12) /\ set_library lib2 m = (Ok tt, m2) /\
    forall k, dget k m12 = dget k m2.
Proof.
  intros K1 K2 D N T. destruct (set_library_lines lib1 m l s K1 D N T) as (m1 & s1 & l1 & E1 & _ & R1 & Rl & D1 & O1).
  assert (N1 : nth_error l1 2 = Some s1) by (apply (replaced_nth _ _ _ _ Rl); auto).
  assert (T1 := renamed_third lib1 s s1 K1 R1).
  assert (I1 := K1). apply in_map_iff in I1 as ([x1 [[a1 b1] c1]] & X & I1). cbn [fst] in X. subst x1.
  assert (I2 := K2). apply in_map_iff in I2 as ([x2 [[a2 b2] c2]] & X & I2). cbn [fst] in X. subst x2.
  assert (D0 := D). destruct D0 as (d & DD & _). assert (D1' := D1). destruct D1' as (d1 & DD1 & _).
  assert (F1 := set_library_form lib1 m l s d _ _ _ I1 D N T DD). rewrite E1 in F1. injection F1 as F1.
  assert (Ed : d1 = dset (KInt 3) (VStr s1) d). { rewrite F1, dget_dset_same in DD1. injection DD1 as <-. rewrite (renamed_ljust _ _ _ R1). reflexivity. }
  do 3 eexists. split; [exact E1|]. split; [exact (set_library_form lib2 m1 l1 s1 d1 _ _ _ I2 D1 N1 T1 DD1)|].
  split; [exact (set_library_form lib2 m l s d _ _ _ I2 D N T DD)|]. intros k.
  assert (Es : ljust 22 ($"----" ++ lib2) ++ skipn 22 s1 = ljust 22 ($"----" ++ lib2) ++ skipn 22 s).
  { assert (R2 : renamed lib2 s1 (ljust 22 ($"----" ++ lib2) ++ skipn 22 s1)).
    { exists (22 - length ($"----" ++ lib2))%nat. unfold ljust, spaces. rewrite <- !app_assoc. split; [reflexivity|].
      assert (L := library_length _ K2). change (length ($"----" ++ lib2)) with (4 + length lib2)%nat. lia. }
    apply (renamed_ljust lib2 s), (renamed_again _ _ _ _ _ R1 R2). }
  rewrite Es, Ed, dset_twice. destruct (key_eqb k (KStr $"DESCRIPTION")) eqn:Ek.
  - apply key_eqb_eq in Ek as ->. rewrite !dget_dset_same. reflexivity.
  - assert (Nk : k <> KStr $"DESCRIPTION") by (intros ->; rewrite (proj2 (key_eqb_eq _ _) eq_refl) in Ek; discriminate).
    rewrite !dget_dset_other by exact Nk.
    assert (X : In k library_keys \/ ~ In k library_keys).
    { destruct (existsb (key_eqb k) library_keys) eqn:Ex; [left|right].
      - apply existsb_exists in Ex as (y & Iy & Ey). apply key_eqb_eq in Ey as ->. exact Iy.
      - intros X. assert (Y : existsb (key_eqb k) library_keys = true) by (apply existsb_exists; exists k; split; [exact X|apply key_eqb_eq; reflexivity]). congruence. }
    destruct X as [X|X].
    + unfold set_numbers, set_int. cbn [library_keys map In] in X.
      destruct X as [<-|[<-|[<-|[]]]]; repeat (rewrite dget_dset_same || rewrite dget_dset_other by discriminate); reflexivity.
    + rewrite !numbers_other by exact X. apply O1. intros [Y|Y]; [apply Nk; symmetry; exact Y|exact (X Y)].
Qed.
