(** Proofs about TrackingDict (C42). *)
From Coq Require Import Ascii String ZArith Bool Lia List.
From Verif Require Import PyBase ProofPyBase ModelInterp ModelPath ModelTracking SpecTracking ProofInterpSec ProofInterpWrite ProofPath ProofPathStr ProofTools.
Import ListNotations.
Open Scope Z_scope.

(** ** The paths read below a key *)

Fixpoint below (k : key) (h : list (list key)) : list (list key) :=
  match h with
  | [] => []
  | [] :: h => below k h
  | (k' :: r) :: h => if key_eqb k k' then r :: below k h else below k h
  end.
Lemma in_below k r h : In r (below k h) <-> In (k :: r) h.
Proof.
  induction h as [|[|k' p] h IH]; cbn [below In]; [tauto| |].
  - rewrite IH. intuition discriminate.
  - destruct (key_eqb k k') eqn:E; cbn [In]; rewrite IH.
    + apply key_eqb_eq in E. subst k'. intuition congruence.
    + split; [auto|]. intros [X|X]; [|exact X]. injection X as -> ->. rewrite key_eqb_refl in E. discriminate.
Qed.
Definition seen (k : key) (h : list (list key)) : Prop := exists r, In (k :: r) h.

Inductive tracks : val -> tracker -> list (list key) -> Prop :=
| tk_dict d acc subs h :
    (forall z, In z acc <-> (exists x, dget (KInt z) d = Some x) /\ seen (KInt z) h) ->
    NoDup (map fst subs) ->
    (forall k x, dget k d = Some x -> should_track k x = true -> seen k h -> exists t, In (k, t) subs) ->
    (forall k t, In (k, t) subs -> exists x, dget k d = Some x /\ should_track k x = true /\ tracks x t (below k h)) ->
    tracks (VDict d) (TDict acc subs) h
| tk_list l acc h :
    length acc = length l ->
    (forall i, nth_error acc i = Some true <-> (i < length l)%nat /\ seen (KInt (Z.of_nat i)) h) ->
    tracks (VList l) (TList acc) h.

(** ** Association lists of trackers *)

Lemma sget_in k t s : sget k s = Some t -> In (k, t) s.
Proof.
  induction s as [|[k' t'] s IH]; cbn [sget]; [discriminate|]. destruct (key_eqb k k') eqn:E.
  - intros [= ->]. apply key_eqb_eq in E. subst. left. reflexivity.
  - intros H. right. auto.
Qed.
Lemma sget_none k s : sget k s = None -> ~ In k (map fst s).
Proof.
  induction s as [|[k' t'] s IH]; cbn [sget]; [auto|]. destruct (key_eqb k k') eqn:E; [discriminate|].
  intros H [X|X]; [cbn in X; subst; rewrite key_eqb_refl in E; discriminate|]. exact (IH H X).
Qed.
Lemma sset_keys k t s : In k (map fst s) -> map fst (sset k t s) = map fst s.
Proof.
  induction s as [|[k' t'] s IH]; cbn [sset map]; [intros []|]. destruct (key_eqb k k') eqn:E; cbn; [reflexivity|].
  intros [X|X]; [subst; rewrite key_eqb_refl in E; discriminate|]. rewrite IH; auto.
Qed.
Lemma sset_new k t s : sget k s = None -> sset k t s = s ++ [(k, t)].
Proof.
  induction s as [|[k' t'] s IH]; cbn [sset sget]; [reflexivity|]. destruct (key_eqb k k'); [discriminate|].
  intros H. rewrite IH by exact H. reflexivity.
Qed.
Lemma sset_in_iff k t s k' t' : NoDup (map fst s) ->
  (In (k', t') (sset k t s) <-> (k' = k /\ t' = t) \/ (k' <> k /\ In (k', t') s)).
Proof.
  induction s as [|[k1 t1] s IH]; cbn [sset map]; intros N.
  - cbn. intuition congruence.
  - inversion N as [|? ? A B]; subst. destruct (key_eqb k k1) eqn:E.
    + apply key_eqb_eq in E. subst k1. cbn [In]. split.
      * intros [X|X]; [injection X; auto|]. right. split; [|auto]. intros ->. apply A. apply (in_map fst) in X. exact X.
      * intros [[-> ->]|[X [Y|Y]]]; auto. injection Y as -> ->. congruence.
    + cbn [In]. rewrite IH by exact B. split.
      * intros [X|[X|X]]; auto; [|intuition]. injection X as -> ->. right. split; auto. intros ->. rewrite key_eqb_refl in E. discriminate.
      * intros [X|[X [Y|Y]]]; auto.
Qed.
Lemma sset_nodup k t s : NoDup (map fst s) -> NoDup (map fst (sset k t s)).
Proof.
  intros N. destruct (sget k s) eqn:E.
  - rewrite sset_keys; [exact N|]. apply sget_in in E. apply (in_map fst) in E. exact E.
  - rewrite sset_new by exact E. rewrite map_app. cbn. apply NoDup_rev in N.
    rewrite <- (rev_involutive (map fst s ++ [k])). apply NoDup_rev. rewrite rev_app_distr. cbn. constructor; [|exact N].
    intros I. apply in_rev in I. exact (sget_none _ _ E I).
Qed.
Lemma sget_sset k t s : sget k (sset k t s) = Some t.
Proof.
  induction s as [|[k' t'] s IH]; cbn [sset sget]; [rewrite key_eqb_refl; reflexivity|].
  destruct (key_eqb k k') eqn:E; cbn [sget]; rewrite E; auto.
Qed.
Lemma sset_sset k t t' s : sset k t (sset k t' s) = sset k t s.
Proof.
  induction s as [|[k1 t1] s IH]; cbn [sset]; [rewrite key_eqb_refl; reflexivity|].
  destruct (key_eqb k k1) eqn:E; cbn [sset]; rewrite E; congruence.
Qed.
Lemma sdel_absent k s : ~ In k (map fst s) -> sdel k s = s.
Proof.
  induction s as [|[k' t'] s IH]; cbn [sdel]; [reflexivity|]. intros H. destruct (key_eqb k k') eqn:E.
  - apply key_eqb_eq in E. subst. exfalso. apply H. left. reflexivity.
  - f_equal. apply IH. intros X. apply H. right. exact X.
Qed.

(** ** Statements *)

Lemma seen_nil k h : seen k ([] :: h) <-> seen k h.
Proof. unfold seen. split; intros [r I]; exists r; [destruct I as [I|I]; [discriminate|exact I]|right; exact I]. Qed.
Lemma seen_cons k k' r h : seen k ((k' :: r) :: h) <-> k = k' \/ seen k h.
Proof.
  unfold seen. split.
  - intros [x [I|I]]; [injection I; auto|eauto].
  - intros [->|[x I]]; [exists r; left; reflexivity|exists x; right; exact I].
Qed.
Lemma tracks_nil v t h : tracks v t h -> tracks v t ([] :: h).
Proof.
  intros H. inversion H as [d acc subs h' A N B C|l acc h' A B]; subst; constructor; auto.
  - intros z. rewrite seen_nil. apply A.
  - intros k x G T. rewrite seen_nil. eauto.
  - intros i. rewrite seen_nil. apply B.
Qed.
(** a new tracker *)
Lemma tracks_new v t : new_tracker v = Some t -> tracks v t [].
Proof.
  destruct v; try discriminate; cbn; intros [= <-]; constructor.
  - rewrite map_length. reflexivity.
  - intros i. split.
    + intros X. exfalso. apply nth_error_In, in_map_iff in X as [? [Y _]]. discriminate.
    + intros [_ [r []]].
  - intros z. split; [intros []|intros [_ [r []]]].
  - constructor.
  - intros k x _ _ [r []].
  - intros k t [].
Qed.

Lemma tracks_container v t h k : tracks v t h -> hidden k = false -> should_track k v = true.
Proof. intros H E. unfold should_track. rewrite E. destruct H; reflexivity. Qed.
Lemma should_track_new k v : should_track k v = true -> exists t, new_tracker v = Some t.
Proof. unfold should_track. destruct (new_tracker v); [eauto|]. rewrite andb_false_r. discriminate. Qed.
Lemma should_track_hidden k v : should_track k v = true -> hidden k = false.
Proof. unfold should_track. destruct (hidden k); [discriminate|reflexivity]. Qed.

Section At.
Context {A : Type}.
Variable f : val -> option tracker -> result A * val * option tracker.
(** [f] keeps the trackers right *)
Hypothesis f_some : forall v t h, tracks v t h -> exists r v' t', f v (Some t) = (r, v', Some t') /\ tracks v' t' h.
Hypothesis f_none : forall v r v' t', new_tracker v = None -> f v None = (r, v', t') -> new_tracker v' = None.
Hypothesis f_plain : forall v r v' t', f v None = (r, v', t') -> t' = None.

Lemma track_at_plain p : forall v r v' t', track_at p f v None = (r, v', t') -> t' = None.
Proof.
  induction p as [|k p IH]; intros v r v' t'; cbn [track_at]; [apply f_plain|].
  destruct (item v k) as [x|e]; [|congruence]. cbn [fetch].
  destruct (track_at p f x None) as [[res x'] tx'] eqn:E. cbn [keep]. congruence.
Qed.
Lemma track_at_none p : forall v r v' t', new_tracker v = None -> track_at p f v None = (r, v', t') -> new_tracker v' = None.
Proof.
  destruct p as [|k p]; intros v r v' t' N; cbn [track_at]; [apply f_none; exact N|].
  destruct (item v k) as [x|e]; [|congruence]. cbn [fetch].
  destruct (track_at p f x None) as [[res x'] tx'] eqn:E. intros [= <- <- <-]. destruct v; try discriminate; exact N.
Qed.

Lemma track_at_tracks p : forall v t h, tracks v t h ->
  exists r v' t', track_at p f v (Some t) = (r, v', Some t') /\ tracks v' t' (p :: h).
Proof.
  induction p as [|k p IH]; intros v t h H.
  - cbn [track_at]. destruct (f_some v t h H) as [r [v' [t' [E T]]]]. exists r, v', t'. split; [exact E|]. apply tracks_nil. exact T.
  - cbn [track_at]. inversion H as [d acc subs h' HA N B C|l acc h' L B]; subst.
    + cbn [item]. destruct (dget k d) as [x|] eqn:G.
      2:{ do 3 eexists. split; [reflexivity|]. constructor; auto.
          - intros z. rewrite seen_cons. rewrite HA. split; [tauto|]. intros [[y Y] [X|X]]; [subst k; congruence|eauto].
          - intros k0 x0 Y T. rewrite seen_cons. intros [X|X]; [subst k0; congruence|eauto].
          - intros k0 t0 I. destruct (C k0 t0 I) as [y [Y [T K]]]. exists y. split; [exact Y|]. split; [exact T|]. cbn [below].
            rewrite key_eqb_neq by congruence. exact K. }
      assert (ACC : forall z, In z (match k with KInt z0 => if existsb (Z.eqb z0) acc then acc else z0 :: acc | KStr _ => acc end)
                    <-> (exists y, dget (KInt z) d = Some y) /\ seen (KInt z) ((k :: p) :: h)).
      { intros z. rewrite seen_cons. destruct k as [z0|s].
        - destruct (existsb (Z.eqb z0) acc) eqn:X.
          + apply existsb_exists in X as [z1 [I1 I2]]. apply Z.eqb_eq in I2. subst z1. rewrite HA. split; [tauto|].
            intros [Y [W|W]]; [injection W as ->; split; [exact Y|]; apply HA; exact I1|auto].
          + cbn [In]. rewrite HA. split.
            * intros [->|[Y W]]; [split; [eauto|left; reflexivity]|split; [exact Y|right; exact W]].
            * intros [Y [W|W]]; [injection W as ->; left; reflexivity|right; auto].
        - rewrite HA. split; [tauto|]. intros [Y [W|W]]; [discriminate|auto]. }
      set (acc' := match k with KInt z0 => if existsb (Z.eqb z0) acc then acc else z0 :: acc | KStr _ => acc end) in *.
      cbn [fetch]. fold acc'.
      (* the tracker of the element *)
      assert (S : (exists tx subs1, (match sget k subs with Some _ => subs | None => match new_tracker x with Some tx => if should_track k x then sset k tx subs else subs | None => subs end end) = subs1 /\
                     sget k subs1 = Some tx /\ tracks x tx (below k h) /\ should_track k x = true /\
                     (forall t2, sset k t2 subs1 = sset k t2 subs))
              \/ (should_track k x = false /\ sget k subs = None)).
      { destruct (sget k subs) as [tx|] eqn:SG.
        - left. exists tx, subs. pose proof (sget_in _ _ _ SG) as I. destruct (C _ _ I) as [y [Y [T K]]].
          rewrite Y in G. injection G as ->. repeat split; auto.
        - destruct (should_track k x) eqn:T; [left|right; auto]. destruct (should_track_new _ _ T) as [tx X]. rewrite X.
          exists tx, (sset k tx subs). split; [reflexivity|]. split; [apply sget_sset|].
          assert (NS : ~ seen k h). { intros W. destruct (B _ _ G T W) as [t1 I]. apply (sget_none _ _ SG). apply (in_map fst) in I. exact I. }
          assert (BN : below k h = []). { destruct (below k h) as [|r0 b0] eqn:X0; [reflexivity|]. exfalso. apply NS. exists r0. apply in_below. rewrite X0. left. reflexivity. }
          split; [rewrite BN; apply tracks_new; exact X|]. split; [reflexivity|]. intros t2. apply sset_sset. }
      destruct S as [(tx & subs1 & -> & SG & TX & ST & SS)|[T SG]].
      * rewrite SG. destruct (IH x tx (below k h) TX) as [r [x' [tx' [E T']]]]. rewrite E.
        do 3 eexists. split; [reflexivity|]. cbn [keep putitem]. rewrite SG, SS. pose proof (should_track_hidden _ _ ST) as HK.
        constructor.
        -- intros z. rewrite ACC. split; intros [[y Y] W]; (split; [|exact W]).
           ++ destruct (key_dec (KInt z) k) as [<-|Q]; [exists x'; apply dget_dset_same|exists y; rewrite dget_dset_other by exact Q; exact Y].
           ++ destruct (key_dec (KInt z) k) as [<-|Q]; [exists x; exact G|exists y; rewrite dget_dset_other in Y by exact Q; exact Y].
        -- apply sset_nodup. exact N.
        -- intros k0 x0 Y T0. rewrite seen_cons. intros W. destruct (key_dec k0 k) as [->|Q].
           ++ exists tx'. apply sset_in_iff; auto.
           ++ rewrite dget_dset_other in Y by exact Q. destruct W as [W|W]; [congruence|]. destruct (B _ _ Y T0 W) as [t1 I]. exists t1. apply sset_in_iff; auto.
        -- intros k0 t0 I. apply sset_in_iff in I; [|exact N]. destruct I as [[-> ->]|[Q I]].
           ++ exists x'. split; [apply dget_dset_same|]. split; [exact (tracks_container _ _ _ _ T' HK)|]. cbn [below]. rewrite key_eqb_refl. exact T'.
           ++ destruct (C _ _ I) as [y [Y [T0 K]]]. exists y. rewrite dget_dset_other by exact Q. split; [exact Y|]. split; [exact T0|]. cbn [below]. rewrite key_eqb_neq by exact Q. exact K.
      * rewrite SG. replace (match new_tracker x with Some tx => if should_track k x then sset k tx subs else subs | None => subs end) with subs
          by (rewrite T; destruct (new_tracker x); reflexivity).
        rewrite SG. destruct (track_at p f x None) as [[r x'] tx'] eqn:E. pose proof (track_at_plain p _ _ _ _ E) as ->.
        do 3 eexists. split; [reflexivity|]. cbn [putitem].
        assert (T1 : should_track k x' = false).
        { unfold should_track in *. destruct (hidden k); [reflexivity|]. cbn [negb andb] in *. destruct (new_tracker x) eqn:X; [discriminate|]. rewrite (track_at_none p _ _ _ _ X E). reflexivity. }
        constructor; auto.
        -- intros z. rewrite ACC. split; intros [[y Y] W]; (split; [|exact W]).
           ++ destruct (key_dec (KInt z) k) as [<-|Q]; [exists x'; apply dget_dset_same|exists y; rewrite dget_dset_other by exact Q; exact Y].
           ++ destruct (key_dec (KInt z) k) as [<-|Q]; [exists x; exact G|exists y; rewrite dget_dset_other in Y by exact Q; exact Y].
        -- intros k0 x0 Y T0. rewrite seen_cons. intros W. destruct (key_dec k0 k) as [->|Q].
           ++ rewrite dget_dset_same in Y. congruence.
           ++ rewrite dget_dset_other in Y by exact Q. destruct W as [W|W]; [congruence|]. eauto.
        -- intros k0 t0 I. destruct (C _ _ I) as [y [Y [T0 K]]].
           assert (Q : k0 <> k) by (intros ->; apply (sget_none _ _ SG); apply (in_map fst) in I; exact I).
           exists y. rewrite dget_dset_other by exact Q. split; [exact Y|]. split; [exact T0|]. cbn [below]. rewrite key_eqb_neq by exact Q. exact K.
    + destruct k as [i|s].
      2:{ cbn [item]. do 3 eexists. split; [reflexivity|]. constructor; auto. intros j. rewrite seen_cons, B. intuition discriminate. }
      cbn [item]. destruct (i <? 0) eqn:S1.
      { do 3 eexists. split; [reflexivity|]. constructor; auto. intros j. rewrite seen_cons, B. split; [tauto|]. intros [W [X|X]]; [|auto]. injection X as X. apply Z.ltb_lt in S1. lia. }
      apply Z.ltb_ge in S1. destruct (nth_error l (Z.to_nat i)) as [x|] eqn:G.
      2:{ do 3 eexists. split; [reflexivity|]. constructor; auto. intros j. rewrite seen_cons, B. split; [tauto|]. intros [W [X|X]]; [|auto]. injection X as X. apply nth_error_None in G. lia. }
      assert (LT : (Z.to_nat i < length l)%nat) by (apply nth_error_Some; congruence).
      cbn [fetch]. destruct (track_at p f x (new_tracker x)) as [[r x'] tx'] eqn:E. do 3 eexists.
      split; [destruct tx'; cbn [keep]; reflexivity|]. cbn [putitem]. constructor.
      * rewrite !length_upd. exact L.
      * intros j. rewrite seen_cons, length_upd. destruct (Nat.eq_dec (Z.to_nat i) j) as [<-|Q].
        -- rewrite nth_upd_same by lia. split; [|reflexivity]. intros _. split; [exact LT|]. left. f_equal. lia.
        -- rewrite nth_upd_other by exact Q. rewrite B. split; [tauto|]. intros [W [X|X]]; [|auto]. injection X as X. lia.
Qed.
End At.

Lemma hidden_spec k : hidden k = true <-> internal_key k.
Proof.
  unfold internal_key. split.
  - destruct k as [z|[|a [|b r]]]; cbn [hidden]; try discriminate. intros H. apply andb_true_iff in H as [A B].
    apply chr_eqb_eq in A, B. subst. exists r. reflexivity.
  - intros [r ->]. reflexivity.
Qed.
Lemma hidden_not k : hidden k = false <-> ~ internal_key k.
Proof. rewrite <- hidden_spec. destruct (hidden k); split; congruence. Qed.
Lemma read_some v t h : tracks v t h -> exists r v' t', (fun (x : val) (tx : option tracker) => (Ok x, x, tx)) v (Some t) = (r, v', Some t') /\ tracks v' t' h.
Proof. intros H. exists (Ok v), v, t. auto. Qed.

Lemma hidden_str k : hidden k = true -> exists s, k = KStr s.
Proof. destruct k; [discriminate|eauto]. Qed.
Lemma hidden_change k d d' acc subs h : hidden k = true -> (forall k', k' <> k -> dget k' d' = dget k' d) ->
  tracks (VDict d) (TDict acc subs) h -> tracks (VDict d') (TDict acc (sdel k subs)) h.
Proof.
  intros HK E H. inversion H as [d0 acc0 subs0 h' HA N B C|]; subst. destruct (hidden_str _ HK) as [s ->].
  assert (NI : ~ In (KStr s) (map fst subs)).
  { intros I. apply in_map_iff in I as [[k1 t1] [X I]]. cbn in X. subst k1. destruct (C _ _ I) as [x [_ [T _]]]. apply should_track_hidden in T. congruence. }
  rewrite sdel_absent by exact NI. constructor; auto.
  - intros z. rewrite HA, E by discriminate. reflexivity.
  - intros k0 x0 Y T W. destruct (key_dec k0 (KStr s)) as [->|Q]; [apply should_track_hidden in T; congruence|]. rewrite E in Y by exact Q. eauto.
  - intros k0 t0 I. destruct (C _ _ I) as [y [Y [T K]]]. exists y. rewrite E; [auto|]. intros ->. apply NI. apply (in_map fst) in I. exact I.
Qed.
Lemma set_some k y v t h : hidden k = true -> tracks v t h -> exists r v' t', track_setitem k y v (Some t) = (r, v', Some t') /\ tracks v' t' h.
Proof.
  intros HK H. destruct (hidden_str _ HK) as [s ->]. destruct H as [d acc subs h HA N B C|l acc h L B].
  - cbn [track_setitem setitem]. do 3 eexists. split; [reflexivity|]. apply (hidden_change (KStr s) d); [exact HK| |constructor; auto].
    intros k' Q. apply dget_dset_other. exact Q.
  - cbn [track_setitem setitem]. do 3 eexists. split; [reflexivity|]. constructor; auto.
Qed.
Lemma del_some k v t h : hidden k = true -> tracks v t h -> exists r v' t', track_delitem k v (Some t) = (r, v', Some t') /\ tracks v' t' h.
Proof.
  intros HK H. destruct (hidden_str _ HK) as [s ->]. destruct H as [d acc subs h HA N B C|l acc h L B].
  - cbn [track_delitem delitem]. destruct (dget (KStr s) d) eqn:G; (do 3 eexists; split; [reflexivity|]).
    + apply (hidden_change (KStr s) d); [exact HK| |constructor; auto]. intros k' Q. apply dget_ddel_other. exact Q.
    + apply (hidden_change (KStr s) d); [exact HK|auto|constructor; auto].
  - cbn [track_delitem]. do 3 eexists. split; [reflexivity|]. constructor; auto.
Qed.
Lemma set_none k y v r v' t' : new_tracker v = None -> track_setitem k y v None = (r, v', t') -> new_tracker v' = None.
Proof. unfold track_setitem. destruct v; try discriminate; intros _; destruct k; cbn [setitem]; intros [= <- <- <-]; reflexivity. Qed.
Lemma del_none k v r v' t' : new_tracker v = None -> track_delitem k v None = (r, v', t') -> new_tracker v' = None.
Proof. unfold track_delitem. destruct v; try discriminate; intros _; destruct k; cbn [delitem]; intros [= <- <- <-]; reflexivity. Qed.
Lemma set_plain k y v r v' t' : track_setitem k y v None = (r, v', t') -> t' = None.
Proof. unfold track_setitem. destruct (setitem k y v). congruence. Qed.
Lemma del_plain k v r v' t' : track_delitem k v None = (r, v', t') -> t' = None.
Proof. unfold track_delitem. destruct (delitem k v). congruence. Qed.

Lemma run_op_tracks o v t h : reads_or_hidden o -> tracks v t h ->
  exists v' t', run_op o (v, Some t) = (v', Some t') /\ tracks v' t' (path_of_op o :: h).
Proof.
  intros R H. destruct o as [p|p k y|p k]; cbn [run_op path_of_op reads_or_hidden] in *.
  - unfold track_read. edestruct (track_at_tracks (fun x tx => (Ok x, x, tx))) as [r [v' [t' [E T]]]]; [exact read_some|congruence|congruence|exact H|].
    rewrite E. eauto.
  - edestruct (track_at_tracks (track_setitem k y)) as [r [v' [t' [E T]]]]; [intros; eapply set_some; [apply hidden_spec; exact R|eauto]|apply set_none|apply set_plain|exact H|].
    rewrite E. eauto.
  - edestruct (track_at_tracks (track_delitem k)) as [r [v' [t' [E T]]]]; [intros; eapply del_some; [apply hidden_spec; exact R|eauto]|apply del_none|apply del_plain|exact H|].
    rewrite E. eauto.
Qed.
Lemma run_ops_tracks ops : forall v t h, Forall reads_or_hidden ops -> tracks v t h ->
  exists v' t', fold_left (fun s o => run_op o s) ops (v, Some t) = (v', Some t') /\ tracks v' t' (rev (map path_of_op ops) ++ h).
Proof.
  induction ops as [|o ops IH]; intros v t h F H; cbn [fold_left map rev]; [eauto|].
  inversion F as [|? ? R F']; subst. destruct (run_op_tracks o v t h R H) as [v1 [t1 [E T]]]. rewrite E.
  rewrite <- app_assoc. exact (IH v1 t1 _ F' T).
Qed.

(** ** The check *)

Definition partly (root : val) (h : list (list key)) : Prop :=
  exists q v i j, reaches root q v /\ has_element v i /\ has_element v j /\
    (exists r, In (q ++ [KInt i] ++ r) h) /\ ~ (exists r, In (q ++ [KInt j] ++ r) h).

Lemma all_ok_spec {A} (f : A -> result unit) (l : list A) :
  (forall x, In x l -> f x = Ok tt \/ f x = Err IndexError) ->
  (all_ok f l = Ok tt /\ forall x, In x l -> f x = Ok tt) \/
  (all_ok f l = Err IndexError /\ exists x, In x l /\ f x = Err IndexError).
Proof.
  induction l as [|x l IH]; intros H; cbn; [left; split; [reflexivity|intros ? []]|].
  destruct (H x (or_introl eq_refl)) as [E|E]; rewrite E; cbn.
  - destruct IH as [[X Y]|[X [y [Y Z]]]]; [intros; apply H; right; assumption| |].
    + left. split; [exact X|]. intros y [<-|I]; auto.
    + right. split; [exact X|]. exists y. auto.
  - right. split; [reflexivity|]. exists x. auto.
Qed.

Lemma dget_int_keys d z : In z (int_keys d) <-> exists x, dget (KInt z) d = Some x.
Proof.
  rewrite int_keys_in. induction d as [|[k v] d IH]; cbn [dget In].
  - split; [intros [? []]|intros [? X]; discriminate].
  - destruct (key_eqb (KInt z) k) eqn:E.
    + apply key_eqb_eq in E. subst k. split; [eauto|intros _; exists v; left; reflexivity].
    + rewrite <- IH. split; [intros [x [X|X]]; [injection X as -> ->; rewrite key_eqb_refl in E; discriminate|eauto]|intros [x X]; eauto].
Qed.
Lemma existsb_in z (l : list Z) : existsb (Z.eqb z) l = true <-> In z l.
Proof. rewrite existsb_exists. split; [intros [y [I E]]; apply Z.eqb_eq in E; subst; exact I|intros I; exists z; split; [exact I|apply Z.eqb_refl]]. Qed.

Definition judged (v : val) (h : list (list key)) (r : result unit) : Prop :=
  (r = Err IndexError /\ partly v h) \/ (r = Ok tt /\ ~ partly v h).

Lemma partly_step d k x h : hidden k = false -> dget k d = Some x -> partly x (below k h) -> partly (VDict d) h.
Proof.
  intros HK G (q & v & i & j & R & Ei & Ej & [r I] & NR). exists (k :: q), v, i, j.
  split; [eapply rc_step; [apply hidden_not; exact HK|exact G|exact R]|]. split; [exact Ei|]. split; [exact Ej|]. split.
  - exists r. apply (proj1 (in_below k _ h)) in I. exact I.
  - intros [r' I']. apply NR. exists r'. apply in_below. exact I'.
Qed.
Lemma partly_dict d h : partly (VDict d) h ->
  (exists i j, has_element (VDict d) i /\ has_element (VDict d) j /\ seen (KInt i) h /\ ~ seen (KInt j) h) \/
  (exists k x, hidden k = false /\ dget k d = Some x /\ seen k h /\ (exists t, new_tracker x = Some t) /\ partly x (below k h)).
Proof.
  intros (q & v & i & j & R & Ei & Ej & [r I] & NR). inversion R as [|d0 k x q' v0 HK G R']; subst.
  - left. exists i, j. split; [exact Ei|]. split; [exact Ej|]. split; [exists r; exact I|]. intros [r' W]. apply NR. exists r'. exact W.
  - right. exists k, x. split; [apply hidden_not; exact HK|]. split; [exact G|]. split; [eexists; exact I|]. split.
    + inversion R'; subst; [|cbn; eauto]. destruct v; try destruct Ei; cbn; eauto.
    + exists q', v, i, j. split; [exact R'|]. split; [exact Ei|]. split; [exact Ej|]. split.
      * exists r. apply in_below. exact I.
      * intros [r' W]. apply NR. exists r'. apply in_below in W. exact W.
Qed.

Lemma verify_judged : forall t v h, tracks v t h -> judged v h (verify t v).
Proof.
  fix IH 1. intros t. destruct t as [acc subs|acc].
  - assert (SUB : forall k t, In (k, t) subs -> forall x h, tracks x t h -> judged x h (verify t x)).
    { induction subs as [|[k0 t0] subs IHs]; intros k t I; [destruct I|]. destruct I as [E|I].
      - injection E as _ <-. exact (IH t0).
      - exact (IHs k t I). }
    clear IH. intros v h H. inversion H as [d acc0 subs0 h' HA N B C|]; subst. cbn [verify].
    destruct (negb (match acc with [] => true | _ => false end) && existsb (fun z => negb (existsb (Z.eqb z) acc)) (int_keys d)) eqn:E.
    + left. split; [reflexivity|]. apply andb_true_iff in E as [E1 E2]. destruct acc as [|i acc]; [discriminate|].
      apply existsb_exists in E2 as [j [J1 J2]]. apply negb_true_iff in J2. apply dget_int_keys in J1.
      destruct (proj1 (HA i) (or_introl eq_refl)) as [Ei Si].
      exists [], (VDict d), i, j. split; [constructor|]. split; [exact Ei|]. split; [exact J1|]. split; [exact Si|].
      intros W. assert (X : In j (i :: acc)) by (apply HA; split; [exact J1|exact W]). apply existsb_in in X. congruence.
    + assert (HERE : ~ exists i j, has_element (VDict d) i /\ has_element (VDict d) j /\ seen (KInt i) h /\ ~ seen (KInt j) h).
      { intros (i & j & Ei & Ej & Si & Sj). assert (Ii : In i acc) by (apply HA; auto).
        apply andb_false_iff in E as [E|E]; [destruct acc; [destruct Ii|discriminate]|].
        assert (X : existsb (fun z => negb (existsb (Z.eqb z) acc)) (int_keys d) = true); [|congruence].
        apply existsb_exists. exists j. split; [apply dget_int_keys; exact Ej|]. apply negb_true_iff.
        destruct (existsb (Z.eqb j) acc) eqn:W; [|reflexivity]. apply existsb_in, HA in W. destruct W. contradiction. }
      destruct (all_ok_spec (fun kt : key * tracker => let '(k, t') := kt in match dget k d with Some x => verify t' x | None => Ok tt end) subs) as [[X Y]|[X [[k t] [Y1 Y2]]]].
      * intros [k t] I. destruct (C _ _ I) as [x [G [T K]]]. rewrite G. destruct (SUB _ _ I _ _ K) as [[-> _]|[-> _]]; auto.
      * right. split; [exact X|]. intros P. apply partly_dict in P as [P|(k & x & HK & G & S & [tx TX] & P)]; [contradiction|].
        assert (T : should_track k x = true) by (unfold should_track; rewrite HK, TX; reflexivity).
        destruct (B _ _ G T S) as [t I]. specialize (Y _ I). cbn in Y. rewrite G in Y.
        destruct (C _ _ I) as [x' [G' [_ K]]]. rewrite G in G'. injection G' as <-.
        destruct (SUB _ _ I _ _ K) as [[W _]|[_ W]]; [congruence|contradiction].
      * left. split; [exact X|]. destruct (C _ _ Y1) as [x [G [T K]]]. rewrite G in Y2.
        destruct (SUB _ _ Y1 _ _ K) as [[_ W]|[W _]]; [|congruence].
        eapply partly_step; [exact (should_track_hidden _ _ T)|exact G|exact W].
  - intros v h H. inversion H as [|l acc0 h' L B]; subst. cbn [verify].
    rewrite <- L, firstn_all. destruct (existsb (fun b => b) acc && existsb (fun b => negb b) acc) eqn:E.
    + left. split; [reflexivity|]. apply andb_true_iff in E as [E1 E2].
      apply existsb_exists in E1 as [b1 [I1 X1]]. apply existsb_exists in E2 as [b2 [I2 X2]].
      apply In_nth_error in I1 as [i I1]. apply In_nth_error in I2 as [j I2]. subst b1. destruct b2; [discriminate|].
      destruct (proj1 (B i) I1) as [Li Si].
      assert (Lj : (j < length l)%nat) by (rewrite <- L; apply nth_error_Some; congruence).
      exists [], (VList l), (Z.of_nat i), (Z.of_nat j). split; [constructor|]. split; [cbn; lia|]. split; [cbn; lia|]. split; [exact Si|].
      intros W. assert (X : nth_error acc j = Some true) by (apply B; split; [exact Lj|exact W]). congruence.
    + right. split; [reflexivity|]. intros (q & v & i & j & R & Ei & Ej & [r I] & NR). inversion R; subst. cbn [has_element] in *.
      assert (Ii : nth_error acc (Z.to_nat i) = Some true) by (apply B; split; [lia|]; rewrite Z2Nat.id by lia; exists r; exact I).
      destruct (nth_error acc (Z.to_nat j)) as [b|] eqn:Jj.
      2:{ apply nth_error_None in Jj. lia. }
      destruct b.
      * apply B in Jj as [_ [r' W]]. rewrite Z2Nat.id in W by lia. apply NR. exists r'. exact W.
      * apply andb_false_iff in E as [E|E].
        -- apply nth_error_In in Ii. assert (W : existsb (fun b => b) acc = true) by (apply existsb_exists; eauto). rewrite W in E. discriminate.
        -- apply nth_error_In in Jj. assert (W : existsb (fun b => negb b) acc = true) by (apply existsb_exists; exists false; auto). rewrite W in E. discriminate.
Qed.

Lemma in_ops ops p : (exists r, In (p ++ r) (rev (map path_of_op ops) ++ [])) <-> was_read ops p.
Proof.
  rewrite app_nil_r. unfold was_read. split.
  - intros [r I]. apply in_rev, in_map_iff in I as [o [E I]]. exists o, r. auto.
  - intros [o [r [I E]]]. exists r. apply in_rev. rewrite rev_involutive. apply in_map_iff. exists o. auto.
Qed.
Lemma partly_ops root ops : partly root (rev (map path_of_op ops) ++ []) <-> partly_read root ops.
Proof.
  unfold partly, partly_read. split; intros (q & v & i & j & R & Ei & Ej & W & NW); exists q, v, i, j; (do 3 (split; [assumption|])).
  - split.
    + apply in_ops. destruct W as [r I]. exists r. rewrite <- app_assoc. exact I.
    + intros X. apply in_ops in X as [r I]. apply NW. exists r. rewrite <- app_assoc in I. exact I.
  - split.
    + apply in_ops in W as [r I]. exists r. rewrite <- app_assoc in I. exact I.
    + intros [r I]. apply NW. apply in_ops. exists r. rewrite <- app_assoc. exact I.
Qed.

Lemma verify_ops d ops : Forall reads_or_hidden ops ->
  let s := run_ops ops d in
  (verify_complete_retrieval s = Err IndexError <-> partly_read (fst s) ops) /\
  (verify_complete_retrieval s = Ok tt <-> ~ partly_read (fst s) ops).
Proof.
  intros F. unfold run_ops. cbn [new_tracker].
  destruct (run_ops_tracks ops (VDict d) (TDict [] []) [] F (tracks_new (VDict d) (TDict [] []) eq_refl)) as [v [t [E T]]].
  rewrite E. cbn [fst verify_complete_retrieval snd]. apply verify_judged in T.
  destruct T as [[-> P]|[-> P]]; rewrite partly_ops in P; split; split; try tauto; discriminate.
Qed.

(** Reading returns the value without a tracker and does not change the object. *)
Lemma read_value p : forall v t, exists t', track_read p v t = (path_lookup p v, v, t').
Proof.
  induction p as [|k p IH]; intros v t; unfold track_read; cbn [track_at path_lookup]; [eauto|].
  destruct (item v k) as [x|e] eqn:E; [|eauto]. cbn [bind]. destruct (fetch t k x) as [t' tx].
  destruct (IH x tx) as [tx' X]. unfold track_read in X. rewrite X. eexists. f_equal. f_equal.
  destruct v; destruct k; cbn [item putitem] in *; try discriminate; try reflexivity.
  - destruct (z <? 0); [discriminate|]. destruct (nth_error l (Z.to_nat z)) eqn:G; [|discriminate]. injection E as ->. rewrite upd_same by exact G. reflexivity.
  - destruct (dget (KInt z) d) eqn:G; [|discriminate]. injection E as ->. rewrite dset_same by exact G. reflexivity.
  - destruct (dget (KStr s) d) eqn:G; [|discriminate]. injection E as ->. rewrite dset_same by exact G. reflexivity.
Qed.
