(** Proofs about the parse driver: selection, failures, and selection when writing. *)
From Coq Require Import Ascii String ZArith Bool Lia List Sorted Permutation.
From Verif Require Import PyBase PyFloat ModelFortran ModelRecords ModelTape SpecFields SpecLibm SpecTape ProofTape ProofTapeWrite.
Import ListNotations.
Open Scope Z_scope.

(** ** The result of parse *)
Section Parse.
  Context {P D : Type}.
  Variable pr : P -> Z -> Z -> list str -> result D * P.
  Variable has : Z -> Z -> bool.
  Variables (ro : ropts) (wo : wopts).
  Hypothesis W : field_width wo.
  Hypothesis Rw : r_width ro = w_width wo.
  Variable nofail : bool.
  Variables exc inc : selection.

  Let psec := parse_section pr has ro wo nofail exc inc.

  Lemma sec_parsed p mf mt ls x p' : psec p mf mt ls = (Ok x, p') ->
    section_parsed pr has ro wo nofail exc inc mf mt ls x.
  Proof.
    unfold psec, parse_section, section_parsed, get_line. destruct ls as [|l0 r]; cbn [nth_error bind]; [discriminate|].
    destruct (read_ctrl ro l0) as [c|] eqn:RC; [|discriminate].
    destruct (has mf mt) eqn:Hr; cbn [andb].
    2:{ intros H; inversion H; subst. right. split; [intros [X _]; discriminate|reflexivity]. }
    destruct (should_skip_section mf mt exc inc) eqn:Sk; cbn [negb].
    { intros H; inversion H; subst. right. split; [|reflexivity]. intros [_ X]. apply selected_iff in X. congruence. }
    pose proof (read_ctrl_fits _ _ _ RC) as Fc.
    destruct (write_end_line ro wo false {| MAT := MAT c; MF := MF c; MT := 0 |} $"99999" W Rw) as (l & E & Er).
    { destruct Fc as (F1 & F2 & F3). repeat split; cbn; lia. }
    { reflexivity. }
    { reflexivity. }
    unfold write_send. rewrite E. destruct (pr p mf mt ((l0 :: r) ++ [l])) as [[y|e] p1] eqn:R.
    - intros H; inversion H; subst. left. split; [split; [reflexivity|now apply selected_iff]|].
      exists l, (MAT c), (MF c), p. split; [|split; [exact Er|left; exists y, p'; auto]].
      exists l0, r, (MT c). split; [reflexivity|]. apply carries_iff. destruct c; exact RC.
    - destruct (is_parser_exception e && nofail) eqn:X; [|discriminate]. apply andb_true_iff in X as [X Y].
      intros H; injection H as <- <-. left. split; [split; [reflexivity|now apply selected_iff]|].
      exists l, (MAT c), (MF c), p. split; [|split; [exact Er|right; exists e, p1; auto]].
      exists l0, r, (MT c). split; [reflexivity|]. apply carries_iff. destruct c; exact RC.
  Qed.

  Definition rel mf (a : Z * list str) (b : Z * section D) : Prop :=
    fst a = fst b /\ section_parsed pr has ro wo nofail exc inc mf (fst a) (snd a) (snd b).

  Definition rel2 (a : Z * list (Z * list str)) (b : Z * list (Z * section D)) : Prop :=
    fst a = fst b /\ Forall2 (rel (fst a)) (snd a) (snd b).
  Lemma rel_key mf a b : rel mf a b -> fst a = fst b. Proof. intros [H _]; exact H. Qed.
  Lemma rel2_key a b : rel2 a b -> fst a = fst b. Proof. intros [H _]; exact H. Qed.

  Lemma mts_parsed mf : forall mts p sub p', parse_mts pr has ro wo nofail exc inc p mf mts = (Ok sub, p') ->
    Forall2 (rel mf) mts sub.
  Proof.
    induction mts as [|[mt ls] mts IH]; intros p sub p' H; cbn [parse_mts] in H; [inversion H; constructor|].
    destruct (parse_section pr has ro wo nofail exc inc p mf mt ls) as [[x|] p1] eqn:E; [|discriminate].
    destruct (parse_mts pr has ro wo nofail exc inc p1 mf mts) as [[rest|] p2] eqn:E2; [|discriminate].
    inversion H; subst. constructor; [|eapply IH; eauto]. split; [reflexivity|]. eapply sec_parsed; eauto.
  Qed.

  Lemma mfs_parsed : forall mfs p d p', parse_mfs pr has ro wo nofail exc inc p mfs = (Ok d, p') ->
    Forall2 rel2 mfs d.
  Proof.
    induction mfs as [|[mf ls] mfs IH]; intros p d p' H; cbn [parse_mfs] in H; [inversion H; constructor|].
    destruct (parse_mts pr has ro wo nofail exc inc p mf ls) as [[x|] p1] eqn:E; [|discriminate].
    destruct (parse_mfs pr has ro wo nofail exc inc p1 mfs) as [[rest|] p2] eqn:E2; [|discriminate].
    inversion H; subst. constructor; [|eapply IH; eauto]. split; [reflexivity|]. eapply mts_parsed; eauto.
  Qed.

  Lemma Forall2_in_l {A B} (R : A -> B -> Prop) l l' a : Forall2 R l l' -> In a l -> exists b, In b l' /\ R a b.
  Proof. induction 1; intros []; subst; [eexists; split; [now left|eauto]|]. destruct IHForall2 as (b & ? & ?); auto. exists b; split; auto; now right. Qed.
  Lemma Forall2_in_r {A B} (R : A -> B -> Prop) l l' b : Forall2 R l l' -> In b l' -> exists a, In a l /\ R a b.
  Proof. induction 1; intros []; subst; [eexists; split; [now left|eauto]|]. destruct IHForall2 as (a & ? & ?); auto. exists a; split; auto; now right. Qed.
  Lemma Forall2_keys {A B} (R : Z * A -> Z * B -> Prop) l l' : (forall a b, R a b -> fst a = fst b) -> Forall2 R l l' -> map fst l = map fst l'.
  Proof. intros K. induction 1; cbn; auto. f_equal; auto. Qed.

  Lemma parse_selection p lines d p' : parse_tape pr has ro wo nofail exc inc p lines = (Ok d, p') ->
    exists d0, split_sections ro lines = Ok d0 /\ (is_dict2 d0 -> is_dict2 d) /\
      (forall mf mt ls, holds d0 mf mt ls -> exists x, holds d mf mt x /\ section_parsed pr has ro wo nofail exc inc mf mt ls x) /\
      (forall mf mt x, holds d mf mt x -> exists ls, holds d0 mf mt ls /\ section_parsed pr has ro wo nofail exc inc mf mt ls x).
  Proof.
    unfold parse_tape. destruct (split_sections ro lines) as [d0|] eqn:E; [|discriminate]. intros H.
    apply mfs_parsed in H. exists d0. split; [reflexivity|]. split; [|split].
    - intros [K1 K2]. split.
      + unfold is_dict in *. rewrite <- (Forall2_keys _ _ _ rel2_key H). exact K1.
      + intros mf sub I. destruct (Forall2_in_r _ _ _ _ H I) as ([mf' s'] & I' & X & F). cbn [fst snd] in *. subst mf'.
        unfold is_dict. rewrite <- (Forall2_keys _ _ _ (rel_key mf) F). exact (K2 _ _ I').
    - intros mf mt ls (sub & I & J). destruct (Forall2_in_l _ _ _ _ H I) as ([mf' s'] & I' & X & F). cbn [fst snd] in *. subst mf'.
      destruct (Forall2_in_l _ _ _ _ F J) as ([mt' x] & J' & Y & Sp). cbn [fst snd] in *. subst mt'. exists x. split; [exists s'; auto|exact Sp].
    - intros mf mt x (sub & I & J). destruct (Forall2_in_r _ _ _ _ H I) as ([mf' s'] & I' & X & F). cbn [fst snd] in *. subst mf'.
      destruct (Forall2_in_r _ _ _ _ F J) as ([mt' ls] & J' & Y & Sp). cbn [fst snd] in *. subst mt'. exists ls. split; [exists s'; auto|exact Sp].
  Qed.
End Parse.

(** ** Totality of the driver *)
Section Total.
  Context {P D : Type}.
  Variable pr : P -> Z -> Z -> list str -> result D * P.
  Variable has : Z -> Z -> bool.
  Variables (ro : ropts) (wo : wopts).
  Hypothesis W : field_width wo.
  Variables exc inc : selection.

  (** the section is not empty, and what the recipe raises is caught *)
  Definition caught (nofail : bool) (mf mt : Z) (ls : list str) : Prop :=
    (exists l r c, ls = l :: r /\ read_ctrl ro l = Ok c) /\
    forall p send, has mf mt = true -> selected exc inc mf mt ->
      match fst (pr p mf mt (ls ++ send)) with Ok _ => True | Err e => is_parser_exception e = true /\ nofail = true end.
  Lemma driver_total nofail : forall d p, (forall mf mt ls, holds d mf mt ls -> caught nofail mf mt ls) ->
    exists x p', parse_mfs pr has ro wo nofail exc inc p d = (Ok x, p').
  Proof.
    assert (Hs : forall p mf mt ls, caught nofail mf mt ls ->
      exists x p', parse_section pr has ro wo nofail exc inc p mf mt ls = (Ok x, p')).
    { intros p mf mt ls ((l & r & c & -> & RC) & Hp). unfold parse_section, get_line. cbn [nth_error bind]. rewrite RC.
      destruct (has mf mt) eqn:Hr; cbn [andb]; [|eauto].
      destruct (should_skip_section mf mt exc inc) eqn:Sk; cbn [negb]; [eauto|].
      destruct (write_end_total wo false W {| MAT := MAT c; MF := MF c; MT := 0 |} $"99999") as (l' & E).
      unfold write_send. rewrite E. specialize (Hp p l' eq_refl (proj2 (selected_iff _ _ _ _) Sk)).
      destruct (pr p mf mt ((l :: r) ++ l')) as [[y|e] p1]; cbn [fst] in Hp; [eauto|]. destruct Hp as [-> ->]. cbn [andb]. eauto. }
    assert (Hm : forall mf mts p, (forall mt ls, In (mt, ls) mts -> caught nofail mf mt ls) ->
      exists x p', parse_mts pr has ro wo nofail exc inc p mf mts = (Ok x, p')).
    { induction mts as [|[mt ls] mts IH]; intros p F; cbn [parse_mts]; [eauto|].
      destruct (Hs p mf mt ls) as (x & p1 & ->); [apply F; now left|].
      destruct (IH p1) as (y & p2 & ->); [intros; apply (F mt0); now right|]. eauto. }
    induction d as [|[mf mts] d IH]; intros p F; cbn [parse_mfs]; [eauto|].
    destruct (Hm mf mts p) as (x & p1 & ->).
    { intros mt ls I. apply (F mf mt). exists mts. split; [now left|exact I]. }
    destruct (IH p1) as (y & p2 & ->); [|eauto].
    intros mf' mt ls (sub & I & J). apply (F mf' mt). exists sub. split; [now right|exact J].
  Qed.
End Total.

Lemma section_first ro lines d mf mt ls : strict ro -> split_sections ro lines = Ok d -> holds d mf mt ls ->
  exists l r c, ls = l :: r /\ read_ctrl ro l = Ok c.
Proof.
  intros S H Hd. destruct (split_contents ro lines d S H) as (t & T & _ & _ & C).
  destruct (proj1 (C mf mt ls) Hd) as [E0 Ne]. clear C Hd. rewrite E0 in *. clear E0 ls. unfold tape_section in *.
  destruct T as (_ & (m & Ch) & F & _).
  destruct ((mf =? 0) && (mt =? 0)).
  { exists (t_head t), [], (mkctrl m 0 0). split; [reflexivity|]. now apply carries_iff. }
  match goal with |- exists l r c, ?x = _ /\ _ => destruct x as [|l r] eqn:E; [contradiction|] end.
  exists l, r.
  assert (I : In l (l :: r)) by now left. rewrite <- E in I. clear E Ne.
  apply in_concat in I as (x & Ix & Il). apply in_map_iff in Ix as (m' & <- & Im).
  apply in_concat in Il as (x & Ix & Il). apply in_map_iff in Ix as (f & <- & If).
  destruct (f_mf f =? mf); [|destruct Il].
  apply in_concat in Il as (x & Ix & Il). apply in_map_iff in Ix as (s & <- & Is).
  destruct (s_mt s =? mt); [|destruct Il].
  rewrite Forall_forall in F. destruct (F m' Im) as (_ & _ & F1 & _). rewrite Forall_forall in F1.
  destruct (F1 f If) as (_ & _ & F2 & _). rewrite Forall_forall in F2. destruct (F2 s Is) as (_ & _ & F3 & _).
  rewrite Forall_forall in F3. exists (mkctrl (m_mat m') (f_mf f) (s_mt s)). split; [reflexivity|]. now apply carries_iff, F3.
Qed.

Lemma parse_nofail {P D} (pr : P -> Z -> Z -> list str -> result D * P) has ro wo exc inc lines d0 :
  field_width wo -> strict ro -> split_sections ro lines = Ok d0 ->
  (forall p mf mt ls send e p', holds d0 mf mt ls -> has mf mt = true -> selected exc inc mf mt ->
     pr p mf mt (ls ++ send) = (Err e, p') -> is_parser_exception e = true) ->
  forall p, exists d p', parse_tape pr has ro wo true exc inc p lines = (Ok d, p').
Proof.
  intros W S H Hp p. unfold parse_tape. rewrite H. apply driver_total; auto.
  intros mf mt ls Hd. split; [eapply section_first; eauto|]. intros q send A B. destruct (pr q mf mt (ls ++ send)) as [[y|e] p1] eqn:E; cbn; auto. split; eauto.
Qed.

(** with nothing included, all sections come back as they are *)
Lemma parse_none {P D} (pr : P -> Z -> Z -> list str -> result D * P) has ro wo nofail p lines d :
  strict ro -> split_sections ro lines = Ok d -> parse_tape pr has ro wo nofail None (Some []) p lines = (Ok (raw_dict d), p).
Proof.
  intros S H. unfold parse_tape. rewrite H.
  assert (F : forall mf mt ls, holds d mf mt ls -> exists l r c, ls = l :: r /\ read_ctrl ro l = Ok c) by (intros; eapply section_first; eauto).
  clear H. revert F. unfold holds.
  assert (Hm : forall mf mts, (forall mt ls, In (mt, ls) mts -> exists l r c, ls = l :: r /\ read_ctrl ro l = Ok c) ->
    parse_mts pr has ro wo nofail None (Some []) p mf mts = (Ok (map (fun s => (fst s, Raw (snd s))) mts), p)).
  { induction mts as [|[mt ls] mts IH]; intros F; cbn [parse_mts map fst snd]; [reflexivity|].
    destruct (F mt ls) as (l & r & c & -> & E2); [now left|].
    unfold parse_section, get_line. cbn [nth_error bind]. rewrite E2. cbn [should_skip_section sel_mf sel_mfmt existsb orb negb].
    rewrite andb_false_r. rewrite IH by (intros; apply (F mt0); now right). reflexivity. }
  induction d as [|[mf mts] d IH]; intros F; cbn [parse_mfs raw_dict map fst snd]; [reflexivity|].
  rewrite Hm.
  - rewrite IH; [reflexivity|]. intros mf' mt ls (sub & I & J). apply (F mf' mt). exists sub. split; [now right|exact J].
  - intros mt ls I. apply (F mf mt). exists mts. split; [now left|exact I].
Qed.

(** ** Selecting when writing is the same as writing the selected sections *)
Lemma filter_zinsert {A} (f : Z -> bool) k (v : A) : forall d, StronglySorted Z.le (map fst d) ->
  filter (fun e => f (fst e)) (zinsert k v d) =
  if f k then zinsert k v (filter (fun e => f (fst e)) d) else filter (fun e => f (fst e)) d.
Proof.
  induction d as [|[k' v'] d IH]; intros S; cbn [zinsert filter map fst] in *.
  - destruct (f k); reflexivity.
  - inversion S as [|? ? S' F]; subst. destruct (Z.leb_spec k k').
    + cbn [filter fst]. destruct (f k) eqn:E1; [|reflexivity]. destruct (f k') eqn:E2.
      * cbn [zinsert]. destruct (Z.leb_spec k k'); [reflexivity|lia].
      * assert (X : Forall (fun e => k <= fst e) (filter (fun e : Z * A => f (fst e)) d)).
        { apply Forall_forall. intros [k2 v2] I. apply filter_In in I as [I _]. rewrite Forall_forall in F.
          specialize (F k2 (in_map fst _ _ I)). cbn. lia. }
        destruct (filter (fun e => f (fst e)) d) as [|[k2 v2] r]; [reflexivity|]. inversion X; subst. cbn [zinsert fst] in *.
        destruct (Z.leb_spec k k2); [reflexivity|lia].
    + cbn [filter fst]. rewrite IH by exact S'. destruct (f k'); destruct (f k); cbn [zinsert]; auto.
      destruct (Z.leb_spec k k'); [lia|reflexivity].
Qed.
Lemma zsort_sorted {A} (d : list (Z * A)) : StronglySorted Z.le (map fst (zsort d)).
Proof. induction d as [|[k v] d IH]; cbn; [constructor|]. now apply zinsert_sorted. Qed.
Lemma filter_zsort {A} (f : Z -> bool) (d : list (Z * A)) :
  zsort (filter (fun e => f (fst e)) d) = filter (fun e => f (fst e)) (zsort d).
Proof.
  induction d as [|[k v] d IH]; cbn [zsort filter fst]; [reflexivity|].
  change (zsort ((k, v) :: d)) with (zinsert k v (zsort d)).
  rewrite (filter_zinsert f k v) by apply zsort_sorted. destruct (f k); [|exact IH].
  change (zsort ((k, v) :: ?r)) with (zinsert k v (zsort r)). now rewrite IH.
Qed.
Lemma zinsert_map {A B} (g : Z -> A -> B) k v d :
  zinsert k (g k v) (map (fun e => (fst e, g (fst e) (snd e))) d) = map (fun e => (fst e, g (fst e) (snd e))) (zinsert k v d).
Proof. induction d as [|[k' v'] d IH]; cbn; [reflexivity|]. destruct (k <=? k'); cbn; [reflexivity|]. now rewrite IH. Qed.
Lemma zsort_map {A B} (g : Z -> A -> B) d :
  zsort (map (fun e => (fst e, g (fst e) (snd e))) d) = map (fun e => (fst e, g (fst e) (snd e))) (zsort d).
Proof.
  induction d as [|[k v] d IH]; cbn [map fst snd]; [reflexivity|].
  change (zsort ((k, v) :: d)) with (zinsert k v (zsort d)).
  change (zsort ((k, g k v) :: ?r)) with (zinsert k (g k v) (zsort r)). now rewrite IH, zinsert_map.
Qed.

Lemma write_selected {D} (rr : Z -> Z -> D -> result (list str * ctrl)) ro wo zab exc inc d d' :
  only_selected exc inc d d' ->
  write_tape rr ro wo zab exc inc d = write_tape rr ro wo zab None None d'.
Proof.
  intros OS. assert (d' = map (fun e => (fst e, filter (fun s => negb (should_skip_section (fst e) (fst s) exc inc)) (snd e))) d) as ->.
  { clear - OS. induction OS as [|[mf s] [mf' s'] l l' [E K] F IH]; cbn [map fst snd] in *; [reflexivity|]. subst mf'.
    f_equal; [|exact IH]. f_equal. clear - K. induction K as [|[mt x] l l' Y K IH|[mt x] l l' Y K IH]; cbn [filter fst] in *; [reflexivity| |].
    - apply selected_iff in Y. rewrite Y. cbn [negb]. now rewrite IH.
    - destruct (should_skip_section mf mt exc inc) eqn:E; [exact IH|]. exfalso. apply Y. now apply selected_iff. }
  assert (Hm : forall mf mts cur, write_mts rr ro wo zab exc inc mf mts cur =
    write_mts rr ro wo zab None None mf (filter (fun e => negb (should_skip_section mf (fst e) exc inc)) mts) cur).
  { induction mts as [|[mt x] mts IH]; intros cur; cbn [write_mts filter fst]; [reflexivity|].
    destruct (should_skip_section mf mt exc inc); cbn [negb]; [apply IH|].
    cbn [write_mts should_skip_section]. destruct (write_section rr ro wo zab mf mt x) as [[ls c]|]; cbn [bind]; [|reflexivity].
    now rewrite IH. }
  unfold write_tape, mfdic, mtdic in *. f_equal.
  rewrite (zsort_map (fun mf sub => filter (fun s => negb (should_skip_section mf (fst s) exc inc)) sub) d).
  induction (zsort d) as [|[mf mts] r IH]; cbn [write_mfs map fst snd]; [reflexivity|].
  rewrite (filter_zsort (fun mt => negb (should_skip_section mf mt exc inc))), <- Hm.
  destruct (write_mts rr ro wo zab exc inc mf (zsort mts) None) as [[ls cur]|]; cbn [bind]; [|reflexivity].
  rewrite IH. reflexivity.
Qed.

(** ** Verbatim sections, with any recipes *)
Definition no_recipe {D} : Z -> Z -> D -> result (list str * ctrl) := fun _ _ _ => Err KeyError.
Lemma write_raw_any {D} (rr rr' : Z -> Z -> D -> result (list str * ctrl)) ro wo zab d :
  write_tape rr ro wo zab None None (raw_dict d) = write_tape rr' ro wo zab None None (raw_dict d).
Proof.
  unfold write_tape. f_equal.
  assert (Hm : forall mf (mts : list (Z * list str)) cur,
    write_mts rr ro wo zab None None mf (map (fun s => (fst s, Raw (snd s))) mts) cur =
    write_mts rr' ro wo zab None None mf (map (fun s => (fst s, Raw (snd s))) mts) cur).
  { induction mts as [|[mt x] mts IH]; intros cur; cbn [write_mts map fst snd should_skip_section]; [reflexivity|].
    change (write_section rr' ro wo zab mf mt (Raw x)) with (write_section rr ro wo zab mf mt (Raw x)).
    destruct (write_section rr ro wo zab mf mt (Raw x)) as [[ls c]|]; cbn [bind]; [|reflexivity]. now rewrite IH. }
  unfold raw_dict, mfdic, mtdic in *.
  rewrite (zsort_map (fun _ sub => map (fun s : Z * list str => (fst s, Raw (snd s))) sub) d).
  induction (zsort d) as [|[mf mts] r IH]; cbn [write_mfs map fst snd]; [reflexivity|].
  rewrite (zsort_map (fun _ x => Raw x) mts), Hm.
  destruct (write_mts rr' ro wo zab None None mf _ None) as [[ls cur]|]; cbn [bind]; [|reflexivity].
  rewrite IH. reflexivity.
Qed.

Lemma verbatim_roundtrip {P D} (rr : Z -> Z -> D -> result (list str * ctrl)) (pr : P -> Z -> Z -> list str -> result D * P) has
    ro wo zab nofail mat d :
  field_width wo -> r_width ro = w_width wo -> strict ro -> verbatim (w_width wo) mat d ->
  exists lines d', write_tape rr ro wo zab None None (raw_dict d) = Ok lines /\
    (forall p, parse_tape pr has ro wo nofail None (Some []) p lines = (Ok (raw_dict d'), p)) /\
    is_dict2 d' /\
    (forall mf mt ls, holds d mf mt ls -> exists ls', holds d' mf mt ls' /\ Forall2 (same_columns (w_width wo)) ls ls') /\
    (forall mf mt ls', holds d' mf mt ls' -> exists ls, holds d mf mt ls /\ Forall2 (same_columns (w_width wo)) ls ls').
Proof.
  intros W Rw S V.
  assert (Rf : forall mf mt (x : D) ls c, @no_recipe D mf mt x = Ok (ls, c) -> ctrl_fits c) by discriminate.
  destruct (verbatim_written (D := D) no_recipe ro wo zab W Rw mat d V) as (lines & E).
  destruct (verbatim_reread (D := D) no_recipe ro wo zab W Rw Rf mat d V lines S E) as (d' & E' & K).
  exists lines, d'. split; [rewrite (write_raw_any rr no_recipe); exact E|]. split; [|exact K].
  intros p. now apply parse_none.
Qed.
