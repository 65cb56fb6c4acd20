(** The directory in MF1/MT451 (C43). *)
From Coq Require Import Ascii String ZArith Bool Lia List Sorted Permutation.
From Verif Require Import PyBase PyFloat ModelFortran ModelRecords ModelTape SpecTape ProofTape.
From Verif Require Import ModelInterp ModelPath ModelTools SpecInterp SpecPath SpecTools.
From Verif Require Import ProofPyBase ProofInterpSec ProofInterpMap ProofInterpWrite ProofTools ProofDesc.
Import ListNotations.
Open Scope Z_scope.

(** ** Columns *)

Lemma column_cell l i x : (exists d, column l = VDict d /\ dget i d = Some (VNum (NInt x))) <-> exists n, i = KInt (Z.of_nat n + 1) /\ nth_error l n = Some x.
Proof.
  unfold column. set (d := map _ _). assert (U : unique_keys d) by exact (numbered_unique (fun z => VNum (NInt z)) l 1).
  assert (M : forall k v, In (k, v) d <-> exists n z, nth_error l n = Some z /\ k = KInt (Z.of_nat n + 1) /\ v = VNum (NInt z)).
  { intros k v. unfold d. rewrite in_map_iff. split.
    - intros ([k' z] & E & I). injection E as <- <-. apply number_in in I as (n & G & ->). eauto.
    - intros (n & z & G & -> & ->). exists (KInt (Z.of_nat n + 1), z). split; [reflexivity|]. apply number_in. eauto. }
  split.
  - intros (d' & E & G). injection E as <-. apply dget_in, M in G as (n & z & G & -> & E). injection E as ->. eauto.
  - intros (n & -> & G). exists d. split; [reflexivity|]. apply unique_dget; [exact U|]. apply M. eauto.
Qed.

(** ** Entries *)

Definition flat {A} (m : mfdic A) : list (Z * Z * A) := flat_map (fun fs => map (fun ts => (fst fs, fst ts, snd ts)) (snd fs)) m.
Lemma flat_in {A} (m : mfdic A) mf mt x : In (mf, mt, x) (flat m) <-> holds m mf mt x.
Proof.
  unfold flat, holds. rewrite in_flat_map. split.
  - intros ([f sub] & I & J). apply in_map_iff in J as ([t y] & E & J). injection E as <- <- <-. eauto.
  - intros (sub & I & J). exists (mf, sub). split; [exact I|]. apply in_map_iff. exists (mt, x). auto.
Qed.
Lemma nodup_app {A} (l m : list A) : NoDup l -> NoDup m -> (forall x, In x l -> In x m -> False) -> NoDup (l ++ m).
Proof.
  induction 1 as [|x l N D IH]; intros M H; [exact M|]. cbn [app]. constructor; [|apply IH; [exact M|]; intros y I; apply H; right; exact I].
  intros I. apply in_app_iff in I as [I|I]; [exact (N I)|]. apply (H x); [left; reflexivity|exact I].
Qed.
Lemma flat_keys_nodup {A} (m : mfdic A) : is_dict2 m -> NoDup (map fst (flat m)).
Proof.
  intros [D1 D2]. unfold is_dict in *. induction m as [|[f sub] m IH]; [constructor|]. cbn [flat flat_map fst snd map] in *. fold (flat m). rewrite map_app.
  inversion D1 as [|? ? N D1']; subst. apply nodup_app.
  - rewrite map_map. cbn [fst]. specialize (D2 f sub (or_introl eq_refl)). clear -D2. induction sub as [|[t y] sub IH]; [constructor|]. cbn [map fst] in *. inversion D2; subst. constructor; [|auto].
    intros I. apply in_map_iff in I as ([t' y'] & E & I). injection E as ->. apply H1. apply in_map_iff. exists (t, y'). auto.
  - apply IH; [exact D1'|]. intros mf s I. exact (D2 mf s (or_intror I)).
  - intros x I J. apply in_map_iff in I as ([[a b] c] & <- & I). apply in_map_iff in I as ([t y] & E & I). injection E as <- <- <-.
    apply in_map_iff in J as ([[a' b'] c'] & E & J). cbn [fst] in E. injection E as -> ->. apply flat_in in J as (sub' & J & _). apply N. apply in_map_iff. exists (f, sub'). auto.
Qed.
Lemma flat_length (m : mfdic Z) : Z.of_nat (length (flat m)) = num_sections m.
Proof.
  unfold flat, num_sections. induction m as [|[f sub] m IH]; [reflexivity|]. cbn [flat_map fold_right fst snd]. rewrite app_length, map_length, Nat2Z.inj_add. unfold mfdic, mtdic in *. rewrite IH. reflexivity.
Qed.
Lemma flat_ascending {A} (m : mfdic A) : ascending2 m -> StronglySorted (fun a b => pair_before (fst a) (snd a) (fst b) (snd b)) (map fst (flat m)).
Proof.
  intros [D1 D2]. unfold ascending in *. induction m as [|[f sub] m IH]; [constructor|]. cbn [flat flat_map fst snd map] in *. fold (flat m). rewrite map_app.
  inversion D1 as [|? ? D1' N]; subst. specialize (IH D1' (fun mf s I => D2 mf s (or_intror I))). specialize (D2 f sub (or_introl eq_refl)).
  assert (H : forall t, In t (map fst (flat m)) -> f < fst t).
  { intros t J. apply in_map_iff in J as ([[a' b'] c'] & <- & J). apply flat_in in J as (sub' & J & _). cbn [fst]. rewrite Forall_forall in N. apply N. apply in_map_iff. exists (a', sub'). auto. }
  clear N D1 D1'. induction sub as [|[t y] sub IHs]; [exact IH|]. cbn [map fst app] in *. inversion D2 as [|? ? S F]; subst. constructor; [apply IHs; exact S|].
  apply Forall_forall. intros p I. apply in_app_iff in I as [I|I].
  - rewrite map_map in I. apply in_map_iff in I as ([t' y'] & <- & I). cbn [fst snd]. right. split; [reflexivity|]. rewrite Forall_forall in F. apply F. apply in_map_iff. exists (t', y'). auto.
  - left. cbn [fst]. apply H. exact I.
Qed.
Lemma sorted_nth {A} (R : A -> A -> Prop) l : StronglySorted R l -> forall i j a b, nth_error l i = Some a -> nth_error l j = Some b -> (i < j)%nat -> R a b.
Proof.
  induction 1 as [|x l S IH F]; intros i j a b I J L; [destruct i; discriminate|]. destruct j as [|j]; [lia|]. cbn [nth_error] in J. destruct i as [|i]; cbn [nth_error] in I.
  - injection I as <-. rewrite Forall_forall in F. apply F. apply (nth_error_In l j J).
  - apply (IH i j a b I J). lia.
Qed.

(** ** Counting *)

Lemma count_keys_sub sub : map fst (map (fun ts : Z * list str => (fst ts, Z.of_nat (length (snd ts)))) sub) = map fst sub.
Proof. rewrite map_map. apply map_ext. reflexivity. Qed.
Lemma filter_nodup {A B} (p : A -> bool) (g : A -> B) l : NoDup (map g l) -> NoDup (map g (filter p l)).
Proof.
  induction l as [|x l IH]; cbn [map filter]; intros N; [constructor|]. inversion N; subst. destruct (p x); [|auto]. cbn [map]. constructor; [|auto].
  intros I. apply H1. apply in_map_iff in I as (y & E & I). apply filter_In in I as [I _]. apply in_map_iff. eauto.
Qed.
Lemma count_in m mf sub : In (mf, sub) (count_sections m) <-> exists s, In (mf, s) m /\ mf <> 0 /\
  sub = map (fun ts => (fst ts, Z.of_nat (length (snd ts)))) (filter (fun ts => negb (fst ts =? 0)) s).
Proof.
  unfold count_sections. rewrite in_map_iff. split.
  - intros ([f s] & E & I). injection E as <- <-. apply filter_In in I as [I N]. cbn [fst] in N. apply negb_true_iff, Z.eqb_neq in N. eauto.
  - intros (s & I & N & ->). exists (mf, s). split; [reflexivity|]. apply filter_In. split; [exact I|]. apply negb_true_iff, Z.eqb_neq. exact N.
Qed.
Lemma count_holds m mf mt n : holds (count_sections m) mf mt n <-> mf <> 0 /\ mt <> 0 /\ exists ls, holds m mf mt ls /\ n = Z.of_nat (length ls).
Proof.
  unfold holds at 1. split.
  - intros (sub & I & J). apply count_in in I as (s & I & N & ->). apply in_map_iff in J as ([t ls] & E & J). injection E as <- <-. apply filter_In in J as [J Q]. cbn [fst] in Q.
    apply negb_true_iff, Z.eqb_neq in Q. split; [exact N|]. split; [exact Q|]. exists ls. split; [exists s; auto|reflexivity].
  - intros (N & Q & ls & (s & I & J) & ->). eexists. split; [apply count_in; exists s; auto|]. apply in_map_iff. exists (mt, ls). split; [reflexivity|]. apply filter_In. split; [exact J|].
    apply negb_true_iff, Z.eqb_neq. exact Q.
Qed.
Lemma count_fst m : map fst (count_sections m) = map fst (filter (fun fs => negb (fst fs =? 0)) m).
Proof. unfold count_sections. rewrite map_map. reflexivity. Qed.
Lemma count_dict m : is_dict2 m -> is_dict2 (count_sections m).
Proof.
  intros [D1 D2]. split; [unfold is_dict in *; rewrite count_fst; apply filter_nodup; exact D1|].
  intros mf sub I. apply count_in in I as (s & I & _ & ->). unfold is_dict. rewrite count_keys_sub. apply filter_nodup. exact (D2 mf s I).
Qed.
Lemma filter_ascending {A} (p : Z * A -> bool) l : ascending (map fst l) -> ascending (map fst (filter p l)).
Proof.
  unfold ascending. induction l as [|x l IH]; cbn [map filter]; intros S; [constructor|]. inversion S as [|? ? S1 F]; subst. destruct (p x); [|auto]. cbn [map]. constructor; [auto|].
  apply Forall_forall. intros z I. apply in_map_iff in I as (y & <- & I). apply filter_In in I as [I _]. rewrite Forall_forall in F. apply F. apply in_map. exact I.
Qed.
Lemma count_ascending m : ascending2 m -> ascending2 (count_sections m).
Proof.
  intros [D1 D2]. split; [rewrite count_fst; apply filter_ascending; exact D1|].
  intros mf sub I. apply count_in in I as (s & I & _ & ->). rewrite count_keys_sub. apply filter_ascending. exact (D2 mf s I).
Qed.

Lemma zset_fst {A} k (v w : A) d : zget k d = Some w -> map fst (zset k v d) = map fst d.
Proof.
  induction d as [|[k' x] d IH]; cbn [zget zset]; [discriminate|]. destruct (k =? k'); intros H; [reflexivity|]. cbn [map fst]. rewrite IH by exact H. reflexivity.
Qed.
Lemma zset_same_length {A} k (v w : A) d : zget k d = Some w -> length (zset k v d) = length d.
Proof. intros H. rewrite <- (map_length fst (zset k v d)), <- (map_length fst d). rewrite (zset_fst k v w d H). reflexivity. Qed.
Lemma num_zset k (s s' : list (Z * Z)) m : zget k m = Some s -> length s' = length s -> num_sections (zset k s' m) = num_sections m.
Proof.
  induction m as [|[k' x] m IH]; cbn [zget zset]; [discriminate|]. destruct (k =? k'); intros H L.
  - injection H as ->. cbn [num_sections fold_right snd]. rewrite L. reflexivity.
  - cbn [num_sections fold_right snd]. f_equal. apply IH; assumption.
Qed.

(** the counts with MF1/MT451 replaced *)
Section Counts.
Context (m : mfdic Z) (D : is_dict2 m) (secs : list (Z * Z)) (n old : Z) (Z1 : zget 1 m = Some secs) (Z2 : zget 451 secs = Some old).
Definition counts' : mfdic Z := zset 1 (zset 451 n secs) m.
Lemma counts_dict : is_dict2 counts'.
Proof.
  split; [apply zset_dict; exact (proj1 D)|]. intros mf sub I. apply zset_in in I as [E|I].
  - injection E as -> ->. apply zset_dict. apply (proj2 D 1). apply zget_in. exact Z1.
  - exact (proj2 D mf sub I).
Qed.
Lemma counts_holds mf mt x : holds counts' mf mt x <-> if (mf =? 1) && (mt =? 451) then x = n else holds m mf mt x.
Proof.
  rewrite (holds_lookup counts' mf mt x counts_dict). pose proof (holds_lookup m mf mt x D) as HM. unfold lookup2, counts' in *. rewrite zget_zset.
  destruct (Z.eqb_spec mf 1) as [->|N]; cbn [andb]; [|tauto]. rewrite Z1 in HM. rewrite zget_zset. destruct (Z.eqb_spec mt 451) as [->|N]; [|tauto].
  split; [intros H; injection H as <-; reflexivity|intros ->; reflexivity].
Qed.
Lemma counts_num : num_sections counts' = num_sections m.
Proof. apply (num_zset 1 secs); [exact Z1|]. apply (zset_same_length 451 n old). exact Z2. Qed.
Lemma counts_ascending : ascending2 m -> ascending2 counts'.
Proof.
  intros [A1 A2]. split; [unfold counts'; rewrite (zset_fst 1 _ secs m Z1); exact A1|]. intros mf sub I. apply zset_in in I as [E|I].
  - injection E as -> ->. rewrite (zset_fst 451 n old secs Z2). apply (A2 1). apply zget_in. exact Z1.
  - exact (A2 mf sub I).
Qed.
End Counts.

(** ** Modification numbers *)

Lemma int_at_iff k d z : int_at k d = Ok z <-> dget k d = Some (VNum (NInt z)).
Proof. unfold int_at, lookup. destruct (dget k d) as [[[y| |]| | | | | | |]|]; cbn [bind]; (split; intros H; [try discriminate H; injection H as ->; reflexivity|try discriminate H; injection H as ->; reflexivity]). Qed.
Lemma dict_at_iff k d x : dict_at k d = Ok x <-> dget k d = Some (VDict x).
Proof. unfold dict_at, lookup. destruct (dget k d) as [[| | |y| | | |]|]; cbn [bind]; (split; intros H; [try discriminate H; injection H as ->; reflexivity|try discriminate H; injection H as ->; reflexivity]). Qed.

Lemma had_mod_fun d i mf mt md mf' mt' md' : had_mod d i mf mt md -> had_mod d i mf' mt' md' -> (mf, mt, md) = (mf', mt', md').
Proof.
  intros ((a & A1 & A2) & (b & B1 & B2) & (c & C1 & C2)) ((a' & A3 & A4) & (b' & B3 & B4) & (c' & C3 & C4)).
  rewrite A1 in A3. injection A3 as <-. rewrite B1 in B3. injection B3 as <-. rewrite C1 in C3. injection C3 as <-.
  rewrite A2 in A4. injection A4 as <-. rewrite B2 in B4. injection B4 as <-. rewrite C2 in C4. injection C4 as <-. reflexivity.
Qed.

Lemma mods_ok d : proper_directory d -> exists l, mod_entries d = Ok l /\ (forall mf mt md, In (mf, mt, md) l <-> exists i, had_mod d i mf mt md) /\
  forall mf mt md, md = mod_of l mf mt -> (exists j, had_mod d j mf mt md) \/ (~ (exists j md', had_mod d j mf mt md') /\ md = 0).
Proof.
  intros P.
  assert (M : exists l, mod_entries d = Ok l /\ forall mf mt md, In (mf, mt, md) l <-> exists i, had_mod d i mf mt md).
  { unfold mod_entries. destruct P as [P|[(fs & F & U & R) _]].
    - rewrite P. exists []. split; [reflexivity|]. intros mf mt md. split; [intros []|]. intros (i & (x & X & _) & _). rewrite P in X. discriminate.
    - rewrite F. rewrite (proj2 (dict_at_iff _ _ _) F). cbn [bind].
      assert (T : forall g, (forall kv, In kv fs -> exists mf mt md, g kv = Ok (mf, mt, md) /\ had_mod d (fst kv) mf mt md) ->
        exists l, mapM g fs = Ok l /\ forall mf mt md, In (mf, mt, md) l <-> exists kv, In kv fs /\ had_mod d (fst kv) mf mt md).
      { clear F U R. intros g. induction fs as [|kv fs IH]; intros H.
        - exists []. split; [reflexivity|]. intros. split; [intros []|intros (kv & [] & _)].
        - destruct IH as (l & E & Q); [intros x I; apply H; right; exact I|]. destruct (H kv (or_introl eq_refl)) as (a & b & c & G & HM).
          exists ((a, b, c) :: l). cbn [mapM]. rewrite G. cbn [bind]. rewrite E. cbn [bind]. split; [reflexivity|]. intros mf mt md. cbn [In]. rewrite Q. split.
          + intros [X|(x & I & X)]; [injection X as <- <- <-; exists kv; auto|exists x; auto].
          + intros (x & [<-|I] & X); [left; exact (had_mod_fun _ _ _ _ _ _ _ _ HM X)|right; eauto]. }
      destruct (T (fun kv => do mf <- int_at (fst kv) fs; do ts <- dict_at (KStr $"MTx") d; do mt <- int_at (fst kv) ts; do ms <- dict_at (KStr $"MOD") d; do md <- int_at (fst kv) ms; Ok (mf, mt, md))) as (l & E & Q).
      { intros kv I. destruct (R (fst kv)) as (mf & mt & md & HM); [apply in_map; exact I|]. exists mf, mt, md. split; [|exact HM].
        destruct HM as ((a & A1 & A2) & (b & B1 & B2) & (c & C1 & C2)). rewrite F in A1. injection A1 as <-.
        rewrite (proj2 (int_at_iff _ _ _) A2). cbn [bind]. rewrite (proj2 (dict_at_iff _ _ _) B1). cbn [bind]. rewrite (proj2 (int_at_iff _ _ _) B2). cbn [bind].
        rewrite (proj2 (dict_at_iff _ _ _) C1). cbn [bind]. rewrite (proj2 (int_at_iff _ _ _) C2). reflexivity. }
      exists l. split; [exact E|]. intros mf mt md. rewrite Q. split; [intros (kv & _ & X); eauto|]. intros (i & X). pose proof X as X'. destruct X' as ((a & A1 & A2) & _). rewrite F in A1. injection A1 as <-.
      apply dget_in in A2. eexists. split; [exact A2|exact X]. }
  destruct M as (l & E & Q). exists l. split; [exact E|]. split; [exact Q|]. intros mf mt md ->. unfold mod_of. destruct (find _ (rev l)) as [[[a b] c]|] eqn:G.
  - apply find_some in G as [I T]. cbn [fst snd] in *. apply andb_true_iff in T as [A B]. apply Z.eqb_eq in A, B. subst. left. apply Q. apply in_rev. exact I.
  - right. split; [|reflexivity]. intros (j & md' & X). assert (I : In (mf, mt, md') (rev l)) by (apply -> in_rev; apply Q; eauto).
    pose proof (find_none _ _ G _ I) as N. cbn [fst snd] in N. rewrite !Z.eqb_refl in N. discriminate.
Qed.

(** ** C43 *)

Definition five : list key := map KStr [ $"MFx"; $"MTx"; $"NCx"; $"MOD"; $"NXC" ].
Definition filled (mods : list (Z * Z * Z)) (es : list (Z * Z * Z)) (n : Z) (old : dict) : dict :=
  dset (KStr $"NXC") (VNum (NInt n)) (dset (KStr $"MOD") (column (map (fun e => mod_of mods (fst (fst e)) (snd (fst e))) es))
    (dset (KStr $"NCx") (column (map snd es)) (dset (KStr $"MTx") (column (map (fun e => snd (fst e)) es)) (dset (KStr $"MFx") (column (map (fun e => fst (fst e)) es)) old)))).
Lemma filled_entry mods es n old i mf mt nc md : entry (filled mods es n old) i mf mt nc md <->
  exists k, i = Z.of_nat k + 1 /\ nth_error es k = Some (mf, mt, nc) /\ md = mod_of mods mf mt.
Proof.
  unfold entry, cell, filled.
  rewrite !(dget_dset_other (KStr $"MFx")) by discriminate. rewrite (dget_dset_same (KStr $"MFx")).
  rewrite !(dget_dset_other (KStr $"MTx")) by discriminate. rewrite (dget_dset_same (KStr $"MTx")).
  rewrite !(dget_dset_other (KStr $"NCx")) by discriminate. rewrite (dget_dset_same (KStr $"NCx")).
  rewrite !(dget_dset_other (KStr $"MOD")) by discriminate. rewrite (dget_dset_same (KStr $"MOD")).
  assert (S : forall l k x, (exists d : dict, Some (column l) = Some (VDict d) /\ dget k d = Some (VNum (NInt x))) <-> exists n, k = KInt (Z.of_nat n + 1) /\ nth_error l n = Some x).
  { intros l k x. rewrite <- column_cell. split; intros (d & E & G); exists d; (split; [congruence|exact G]). }
  rewrite !S. split.
  - intros ((a & A1 & A2) & (b & B1 & B2) & (c & C1 & C2) & (e & E1 & E2)). injection A1 as ->. injection B1 as B1. injection C1 as C1. injection E1 as E1.
    assert (b = a) as -> by lia. assert (c = a) as -> by lia. assert (e = a) as -> by lia. exists a. rewrite nth_error_map in A2, B2, C2, E2.
    destruct (nth_error es a) as [[[x y] z]|]; [|discriminate]. cbn in A2, B2, C2, E2. injection A2 as ->. injection B2 as ->. injection C2 as ->. injection E2 as <-. auto.
  - intros (k & -> & G & ->). repeat split; exists k; rewrite nth_error_map, G; auto.
Qed.
Lemma filled_other mods es n old k : ~ In k five -> dget k (filled mods es n old) = dget k old.
Proof.
  intros N. unfold filled. rewrite !dget_dset_other; [reflexivity|..]; intros E; apply N; unfold five; cbn [map In]; try (rewrite E; tauto); rewrite <- E; tauto.
Qed.
Lemma filled_nxc mods es n old : dget (KStr $"NXC") (filled mods es n old) = Some (VNum (NInt n)).
Proof. apply dget_dset_same. Qed.

Theorem updated m old nwd : is_dict2 m -> (exists ls, holds m 1 451 ls) -> dget (KStr $"NWD") old = Some (VNum (NInt nwd)) -> proper_directory old ->
  exists new, update_directory m old = Ok new /\ directory_of (holds m) old new /\ (ascending2 m -> ascending_rows new).
Proof.
  intros D (ls & H) NW P. destruct (mods_ok old P) as (mods & M1 & M2 & M3). unfold update_directory.
  rewrite (proj2 (int_at_iff _ _ _) NW). cbn [bind]. pose proof (count_dict m D) as CD. set (c := count_sections m) in *.
  assert (HC : holds c 1 451 (Z.of_nat (length ls))) by (apply count_holds; repeat split; try lia; eauto).
  apply (holds_lookup c 1 451 _ CD) in HC. unfold lookup2 in HC. destruct (zget 1 c) as [secs|] eqn:Z1; [|discriminate].
  rewrite M1. cbn [bind]. set (n := 4 + nwd + num_sections c). change (zset 1 (zset 451 n secs) c) with (counts' c secs n).
  pose proof (counts_dict c CD secs n Z1) as CD'. pose proof (counts_holds c CD secs n Z1) as CH. pose proof (counts_num c secs n _ Z1 HC) as CN.
  change (flat_map (fun fs => map (fun ts => (fst fs, fst ts, snd ts)) (snd fs)) (counts' c secs n)) with (flat (counts' c secs n)). set (es := flat (counts' c secs n)) in *.
  eexists. split; [reflexivity|]. change (directory_of (holds m) old (filled mods es (num_sections c) old) /\ (ascending2 m -> ascending_rows (filled mods es (num_sections c) old))).
  assert (L : Z.of_nat (length es) = num_sections c) by (unfold es; rewrite flat_length; exact CN).
  assert (NI : forall k mf mt nc, nth_error es k = Some (mf, mt, nc) -> holds (counts' c secs n) mf mt nc) by (intros k mf mt nc G; apply flat_in; exact (nth_error_In es k G)).
  split.
  - exists nwd, (num_sections c). split; [exact NW|]. split; [apply filled_nxc|]. split; [|split; [|split; [|split; [|split; [|split]]]]].
    + intros i. split.
      * intros (mf & mt & nc & md & E). apply filled_entry in E as (k & -> & G & _). assert (k < length es)%nat by (apply nth_error_Some; congruence). lia.
      * intros R. destruct (nth_error es (Z.to_nat (i - 1))) as [[[mf mt] nc]|] eqn:G; [|apply nth_error_None in G; lia]. exists mf, mt, nc, (mod_of mods mf mt).
        apply filled_entry. exists (Z.to_nat (i - 1)). split; [lia|]. auto.
    + intros mf mt. split.
      * intros (i & nc & md & E). apply filled_entry in E as (k & _ & G & _). apply NI, CH in G. destruct ((mf =? 1) && (mt =? 451)) eqn:B.
        { apply andb_true_iff in B as [B1 B2]. apply Z.eqb_eq in B1, B2. subst. split; [lia|]. split; [lia|]. eauto. }
        apply count_holds in G as (A & B' & x & X & _). eauto.
      * intros (A & B & x & X). assert (G : exists nc, holds (counts' c secs n) mf mt nc).
        { destruct ((mf =? 1) && (mt =? 451)) eqn:T; [exists n; apply CH; rewrite T; reflexivity|]. exists (Z.of_nat (length x)). apply CH. rewrite T. apply count_holds. eauto. }
        destruct G as (nc & G). apply flat_in in G. apply In_nth_error in G as (k & G). exists (Z.of_nat k + 1), nc, (mod_of mods mf mt). apply filled_entry. exists k. auto.
    + intros i j mf mt nc md nc' md' E F. apply filled_entry in E as (k & -> & G & _). apply filled_entry in F as (k' & -> & G' & _). f_equal. f_equal.
      pose proof (flat_keys_nodup (counts' c secs n) CD') as ND. apply (proj1 (NoDup_nth_error _) ND).
      * rewrite map_length. apply nth_error_Some. fold es. congruence.
      * fold es. rewrite !nth_error_map, G, G'. reflexivity.
    + intros i nc md E. apply filled_entry in E as (k & _ & G & _). apply NI, CH in G. exact G.
    + intros i mf mt nc md x E N X. apply filled_entry in E as (k & _ & G & _). apply NI, CH in G. destruct ((mf =? 1) && (mt =? 451)) eqn:B.
      { apply andb_true_iff in B as [B1 B2]. apply Z.eqb_eq in B1, B2. subst. contradiction. }
      apply count_holds in G as (_ & _ & y & Y & ->). apply (holds_lookup m mf mt _ D) in X, Y. congruence.
    + intros i mf mt nc md E. apply filled_entry in E as (k & _ & _ & ->). apply M3. reflexivity.
    + intros k N. apply filled_other. exact N.
  - intros A. intros i j mf mt nc md mf' mt' nc' md' E F IJ. apply filled_entry in E as (k & -> & G & _). apply filled_entry in F as (k' & -> & G' & _).
    pose proof (flat_ascending _ (counts_ascending c secs n _ Z1 HC (count_ascending m A))) as S. fold es in S.
    apply (sorted_nth _ _ S k k' (mf, mt) (mf', mt')); [rewrite nth_error_map, G; reflexivity|rewrite nth_error_map, G'; reflexivity|lia].
Qed.

(** *** The order of the sections of a file *)

Definition within (d : mfdic (list str)) (mf mt : Z) : Prop :=
  Forall (fun k => k <= mf) (map fst d) /\ forall sub, In (mf, sub) d -> Forall (fun k => k <= mt) (map fst sub).
Lemma zset_new {A} k (v : A) d : zget k d = None -> zset k v d = d ++ [(k, v)].
Proof. induction d as [|[k' x] d IH]; cbn [zget zset app]; [reflexivity|]. destruct (k =? k'); [discriminate|]. intros H. rewrite IH by exact H. reflexivity. Qed.
Lemma zget_none {A} k (d : list (Z * A)) : zget k d = None -> ~ In k (map fst d).
Proof.
  induction d as [|[k' x] d IH]; cbn [zget map fst In]; [auto|]. destruct (Z.eqb_spec k k'); [discriminate|]. intros H [E|I]; [lia|]. exact (IH H I).
Qed.
Lemma ascending_app_last l x : ascending l -> Forall (fun k => k < x) l -> ascending (l ++ [x]).
Proof.
  unfold ascending. induction 1 as [|y l S IH F]; intros H; [repeat constructor|]. inversion H; subst. cbn [app]. constructor; [auto|]. apply Forall_app. split; [exact F|]. repeat constructor. assumption.
Qed.
Lemma zset_ascending {A} k (v : A) d : ascending (map fst d) -> Forall (fun x => x <= k) (map fst d) ->
  ascending (map fst (zset k v d)) /\ Forall (fun x => x <= k) (map fst (zset k v d)).
Proof.
  intros S F. destruct (zget k d) as [w|] eqn:G.
  - rewrite (zset_fst k v w d G). auto.
  - rewrite zset_new by exact G. rewrite map_app. cbn [map fst]. split.
    + apply ascending_app_last; [exact S|]. apply Forall_forall. intros x I. rewrite Forall_forall in F. specialize (F x I). assert (x <> k) by (intros ->; exact (zget_none k d G I)). lia.
    + apply Forall_app. split; [exact F|]. repeat constructor. lia.
Qed.
Lemma append_ascending d mf mt l : is_dict2 d -> ascending2 d -> within d mf mt -> ascending2 (dic_append d mf mt l) /\ within (dic_append d mf mt l) mf mt.
Proof.
  intros DD [A1 A2] [B1 B2]. unfold dic_append. set (sub := match zget mf d with Some s => s | None => [] end). set (cur := match zget mt sub with Some x => x | None => [] end).
  assert (SA : ascending (map fst sub) /\ Forall (fun k => k <= mt) (map fst sub)).
  { unfold sub. destruct (zget mf d) as [s|] eqn:G; [|split; constructor]. apply zget_in in G. split; [exact (A2 mf s G)|exact (B2 s G)]. }
  destruct SA as [SA SB]. destruct (zset_ascending mt (cur ++ [l]) sub SA SB) as [SA' SB']. destruct (zset_ascending mf (zset mt (cur ++ [l]) sub) d A1 B1) as [A1' B1'].
  split; split; try assumption.
  - intros f s I. apply zset_in in I as [E|I]; [injection E as -> ->; exact SA'|exact (A2 f s I)].
  - intros s I. apply (in_zget mf s) in I; [|apply zset_dict; exact (proj1 DD)]. rewrite zget_zset, Z.eqb_refl in I. injection I as <-. exact SB'.
Qed.
Lemma within_mt d mf mt mt' : within d mf mt -> mt <= mt' -> within d mf mt'.
Proof. intros [A B] L. split; [exact A|]. intros sub I. eapply Forall_impl; [|exact (B sub I)]. intros k; cbn; lia. Qed.
Lemma within_mf d mf mt mf' mt' : within d mf mt -> mf < mf' -> within d mf' mt'.
Proof.
  intros [A B] L. split; [eapply Forall_impl; [|exact A]; intros k; cbn; lia|]. intros sub I. exfalso. rewrite Forall_forall in A.
  specialize (A mf'). cbn in A. assert (In mf' (map fst d)) by (apply in_map_iff; exists (mf', sub); auto). specialize (A H). lia.
Qed.
Definition ordered (d : mfdic (list str)) : Prop := good_dict d /\ ascending2 d.
Lemma lines_ordered mf mt ls : forall d, ordered d -> within d mf mt -> ordered (ProofTape.add_lines mf mt ls d) /\ within (ProofTape.add_lines mf mt ls d) mf mt.
Proof.
  induction ls as [|l ls IH]; intros d [G A] W; [split; [split|]; assumption|]. cbn [ProofTape.add_lines fold_left]. apply IH.
  - split; [apply good_append; exact G|]. apply append_ascending; try assumption. exact (proj1 G).
  - apply append_ascending; try assumption. exact (proj1 G).
Qed.
Lemma secs_ordered mf ss : forall d mt0, ordered d -> within d mf mt0 -> Forall (fun s => mt0 <= s_mt s) ss -> ascending (map s_mt ss) ->
  ordered (fold_left (sec_dict mf) ss d) /\ exists mt1, within (fold_left (sec_dict mf) ss d) mf mt1.
Proof.
  induction ss as [|s ss IH]; intros d mt0 O W F A; [split; [exact O|exists mt0; exact W]|]. cbn [fold_left]. inversion F; subst. cbn [map] in A. inversion A as [|? ? A1 A2]; subst.
  destruct (lines_ordered mf (s_mt s) (s_body s) d O (within_mt _ _ _ _ W H1)) as [O' W']. apply (IH _ (s_mt s)); try assumption.
  apply Forall_forall. intros x I. rewrite Forall_forall in A2. specialize (A2 (s_mt x) (in_map _ _ _ I)). lia.
Qed.
Lemma files_ordered fs : forall d mf0 mt0, ordered d -> within d mf0 mt0 -> Forall (fun f => mf0 < f_mf f) fs -> ascending (map f_mf fs) ->
  Forall (fun f => ascending (map s_mt (f_secs f))) fs -> ordered (fold_left file_dict fs d).
Proof.
  induction fs as [|f fs IH]; intros d mf0 mt0 O W F A B; [exact O|]. cbn [fold_left]. inversion F; subst. inversion B; subst. cbn [map] in A. inversion A as [|? ? A1 A2]; subst.
  assert (LB : exists m, Forall (fun s => m <= s_mt s) (f_secs f)).
  { clear. induction (f_secs f) as [|s ss [m IH]]; [exists 0; constructor|]. exists (Z.min m (s_mt s)). constructor; [lia|]. eapply Forall_impl; [|exact IH]. intros x; cbn; lia. }
  destruct LB as (m & LB). destruct (secs_ordered (f_mf f) (f_secs f) d m O (within_mf _ _ _ _ m W H1) LB H3) as [O' (mt1 & W')].
  apply (IH (file_dict d f) (f_mf f) mt1); try assumption. apply Forall_forall. intros x I. rewrite Forall_forall in A2. exact (A2 (f_mf x) (in_map _ _ _ I)).
Qed.
Lemma ordered_dict t : ordered_tape t -> ascending2 (tape_dict t).
Proof.
  intros (m & E & A & B). unfold tape_dict. rewrite E. cbn [fold_left]. unfold mat_dict.
  refine (proj2 (files_ordered (m_files m) _ 0 0 _ _ _ A _)).
  - split; [apply head_dict_good|]. split; [repeat constructor|]. intros mf sub [X|[]]. injection X as <- <-. repeat constructor.
  - split; [constructor; [cbn; lia|constructor]|]. intros sub [X|[]]. injection X as <-. constructor; [cbn; lia|constructor].
  - eapply Forall_impl; [|exact B]. cbn. tauto.
  - eapply Forall_impl; [|exact B]. cbn. tauto.
Qed.

Lemma directory_iff (P Q : Z -> Z -> list str -> Prop) old new : (forall mf mt ls, P mf mt ls <-> Q mf mt ls) -> directory_of P old new -> directory_of Q old new.
Proof.
  intros E (nwd & nxc & H1 & H2 & H3 & H4 & H5 & H6 & H7 & H8 & H9). exists nwd, nxc. split; [exact H1|]. split; [exact H2|]. split; [exact H3|]. split; [|split; [exact H5|split; [exact H6|split; [|split; [exact H8|exact H9]]]]].
  - intros mf mt. rewrite H4. split; intros (A & B & ls & X); (split; [exact A|]); (split; [exact B|]); exists ls; apply E; exact X.
  - intros i mf mt nc md ls X N Y. apply (H7 i mf mt nc md ls X N). apply E. exact Y.
Qed.
Theorem updated_file ro t old nwd : r_send ro = false -> tape_ok ro t -> tape_section t 1 451 <> [] ->
  dget (KStr $"NWD") old = Some (VNum (NInt nwd)) -> proper_directory old ->
  exists new, update_directory_from ro (tape_lines t) old = Ok new /\
    directory_of (fun mf mt ls => ls = tape_section t mf mt /\ ls <> []) old new /\ (ordered_tape t -> ascending_rows new).
Proof.
  intros RS T S N P. unfold update_directory_from. rewrite (split_tape ro t RS T). cbn [bind]. destruct (tape_dict_spec ro t T) as [[G1 G2] L].
  assert (H : forall mf mt ls, holds (tape_dict t) mf mt ls <-> (ls = tape_section t mf mt /\ ls <> [])).
  { intros mf mt ls. rewrite holds_lookup by exact G1. rewrite <- L. unfold lines_of. destruct (lookup2 (tape_dict t) mf mt) as [x|] eqn:E; split.
    - intros X; inversion X; subst. split; auto. eapply G2; eauto.
    - intros [-> _]; reflexivity.
    - discriminate.
    - intros [-> X]; contradiction. }
  destruct (updated (tape_dict t) old nwd G1) as (new & E & Dn & A); [exists (tape_section t 1 451); apply H; auto|exact N|exact P|].
  exists new. split; [exact E|]. split; [exact (directory_iff _ _ old new H Dn)|]. intros O. apply A. apply ordered_dict. exact O.
Qed.
