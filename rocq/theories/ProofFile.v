(** Proof of C56: files whose sections are restored one by one. *)
From Coq Require Import Ascii String ZArith Bool Lia List Sorted Permutation.
From Verif Require Import PyBase PyFloat ModelFortran ModelRecords ModelTape SpecFields SpecLibm SpecTape ProofTape ProofTapeWrite ProofTapeParse.
Import ListNotations.
Open Scope Z_scope.

Section File.
  Context {P D : Type}.
  Variable rr : Z -> Z -> D -> result (list str * ctrl).
  Variable pr : P -> Z -> Z -> list str -> result D * P.
  Variable has : Z -> Z -> bool.
  Variables (ro : ropts) (wo : wopts) (zab nofail : bool).
  Hypothesis W : field_width wo.
  Hypothesis Rw : r_width ro = w_width wo.
  Hypothesis St : strict ro.
  Variable bo : Z -> Z -> section D -> list str.

  Definition bodies (d : mfdic (section D)) : mfdic (list str) :=
    map (fun e => (fst e, map (fun s => (fst s, bo (fst e) (fst s) (snd s))) (snd e))) d.

  Lemma bodies_holds d mf mt ls : holds (bodies d) mf mt ls <-> exists x, holds d mf mt x /\ ls = bo mf mt x.
  Proof.
    unfold holds, bodies. split.
    - intros (sub & I & J). apply in_map_iff in I as ([mf' sub'] & E & I). injection E as <- <-. cbn [fst snd] in *.
      apply in_map_iff in J as ([mt' x] & E & J). injection E as <- <-. exists x. split; [exists sub'; auto|reflexivity].
    - intros (x & (sub & I & J) & ->). exists (map (fun s => (fst s, bo mf (fst s) (snd s))) sub). split.
      + apply in_map_iff. exists (mf, sub). auto.
      + apply in_map_iff. exists (mt, x). auto.
  Qed.
  Lemma bodies_is_dict2 d : is_dict2 d -> is_dict2 (bodies d).
  Proof.
    intros [H1 H2]. split.
    - unfold is_dict, bodies. rewrite map_map. exact H1.
    - intros mf sub I. apply in_map_iff in I as ([mf' sub'] & E & I). injection E as <- <-.
      unfold is_dict. rewrite map_map. exact (H2 _ _ I).
  Qed.

  (** sections written like other sections *)
  Definition alike (mf : Z) (a b : Z * section D) : Prop :=
    fst a = fst b /\ write_section rr ro wo zab mf (fst a) (snd a) = write_section rr ro wo zab mf (fst b) (snd b).
  Definition alike2 (a b : Z * mtdic (section D)) : Prop := fst a = fst b /\ Forall2 (alike (fst a)) (snd a) (snd b).

  Lemma zsort_alike {A} (R : Z * A -> Z * A -> Prop) : (forall a b, R a b -> fst a = fst b) ->
    forall d d', Forall2 R d d' -> Forall2 R (zsort d) (zsort d').
  Proof.
    intros K. induction 1 as [|[k v] [k' v'] d d' H F IH]; [constructor|]. pose proof (K _ _ H) as E. cbn [fst] in E. subst k'.
    change (zsort ((k, v) :: d)) with (zinsert k v (zsort d)). change (zsort ((k, v') :: d')) with (zinsert k v' (zsort d')).
    induction IH as [|[j u] [j' u'] e e' H1 F1 IH1]; cbn [zinsert]; [repeat constructor; exact H|].
    pose proof (K _ _ H1) as E. cbn [fst] in E. subst j'. destruct (k <=? j); repeat constructor; auto.
  Qed.
  Lemma alike_mts mf mts mts' : Forall2 (alike mf) mts mts' -> forall cur, write_mts rr ro wo zab None None mf mts cur = write_mts rr ro wo zab None None mf mts' cur.
  Proof.
    induction 1 as [|[k v] [k' v'] d d' [E H] F IH]; intros cur; [reflexivity|]. cbn [fst snd] in *. subst k'.
    cbn [write_mts should_skip_section]. rewrite <- H. destruct (write_section rr ro wo zab mf k v) as [[ls c]|]; cbn [bind]; [|reflexivity]. now rewrite IH.
  Qed.
  Lemma alike_tape d d' : Forall2 alike2 d d' -> write_tape rr ro wo zab None None d = write_tape rr ro wo zab None None d'.
  Proof.
    intros F. unfold write_tape. apply zsort_alike in F; [|intros a b [E _]; exact E]. f_equal.
    induction F as [|[k v] [k' v'] e e' [E H] F IH]; [reflexivity|]. cbn [fst snd] in *. subst k'. cbn [write_mfs].
    rewrite (alike_mts k _ _ (zsort_alike _ (fun a b (X : alike k a b) => proj1 X) _ _ H)).
    destruct (write_mts rr ro wo zab None None k (zsort v') None) as [[ls cur]|]; cbn [bind]; [|reflexivity]. now rewrite IH.
  Qed.

  Lemma Forall2_same {A B} (R : A -> B -> Prop) (g : A -> B) l : (forall a, In a l -> R a (g a)) -> Forall2 R l (map g l).
  Proof. induction l; intros H; constructor; [apply H; now left|apply IHl; intros; apply H; now right]. Qed.

  Variable Q : Z -> Z -> section D -> section D -> Prop.
  Variables (d : mfdic (section D)) (mat : Z).
  Hypothesis Hw : forall mf mt x, holds d mf mt x -> write_section rr ro wo zab mf mt x = write_section rr ro wo zab mf mt (Raw (bo mf mt x)).
  Hypothesis Hv : verbatim (w_width wo) mat (bodies d).

  Lemma write_bodies : write_tape rr ro wo zab None None d = write_tape rr ro wo zab None None (raw_dict (bodies d)).
  Proof.
    apply alike_tape. unfold raw_dict, bodies. rewrite map_map. apply Forall2_same. intros [mf sub] I. split; [reflexivity|].
    cbn [fst snd]. rewrite map_map. apply Forall2_same. intros [mt x] J. split; [reflexivity|]. cbn [fst snd]. apply Hw. exists sub. auto.
  Qed.

  Lemma parse_all : forall (d0 : mfdic (list str)) p, (forall mf mt ls, holds d0 mf mt ls -> exists y, parse_section pr has ro wo nofail None None p mf mt ls = (Ok y, p)) ->
    exists d', parse_mfs pr has ro wo nofail None None p d0 = (Ok d', p) /\
      Forall2 (fun a b => fst a = fst b /\ Forall2 (fun u v => fst u = fst v /\ parse_section pr has ro wo nofail None None p (fst a) (fst u) (snd u) = (Ok (snd v), p)) (snd a) (snd b)) d0 d'.
  Proof.
    intros d0 p.
    assert (Hm : forall mf (mts : mtdic (list str)), (forall mt ls, In (mt, ls) mts -> exists y, parse_section pr has ro wo nofail None None p mf mt ls = (Ok y, p)) ->
      exists sub, parse_mts pr has ro wo nofail None None p mf mts = (Ok sub, p) /\
        Forall2 (fun u v => fst u = fst v /\ parse_section pr has ro wo nofail None None p mf (fst u) (snd u) = (Ok (snd v), p)) mts sub).
    { induction mts as [|[mt ls] mts IH]; intros F; cbn [parse_mts]; [eexists; split; [reflexivity|constructor]|].
      destruct (F mt ls) as (y & E); [now left|]. rewrite E. destruct IH as (sub & E2 & F2); [intros; apply F; now right|]. rewrite E2.
      eexists. split; [reflexivity|]. constructor; [|exact F2]. split; [reflexivity|exact E]. }
    induction d0 as [|[mf mts] d0 IH]; intros F; cbn [parse_mfs]; [eexists; split; [reflexivity|constructor]|].
    destruct (Hm mf mts) as (sub & E & F1). { intros mt ls I. apply (F mf mt). exists mts. split; [now left|exact I]. }
    rewrite E. destruct IH as (d' & E2 & F2). { intros mf' mt ls (sub' & I & J). apply (F mf' mt). exists sub'. split; [now right|exact J]. }
    rewrite E2. eexists. split; [reflexivity|]. constructor; [|exact F2]. split; [reflexivity|exact F1].
  Qed.

  Lemma file_written : exists tape, write_tape rr ro wo zab None None d = Ok tape.
  Proof.
    destruct (verbatim_written (D := D) no_recipe ro wo zab W Rw mat _ Hv) as (tape & E).
    exists tape. rewrite write_bodies, (write_raw_any rr no_recipe). exact E.
  Qed.

  Theorem file_back tape p : write_tape rr ro wo zab None None d = Ok tape ->
    (forall mf mt x ls, holds d mf mt x -> Forall2 (same_columns (w_width wo)) (bo mf mt x) ls ->
      exists y, parse_section pr has ro wo nofail None None p mf mt ls = (Ok y, p) /\ Q mf mt x y) ->
    exists d', parse_tape pr has ro wo nofail None None p tape = (Ok d', p) /\ is_dict2 d' /\
    (forall mf mt x, holds d mf mt x -> exists y, holds d' mf mt y /\ Q mf mt x y) /\
    (forall mf mt y, holds d' mf mt y -> exists x, holds d mf mt x /\ Q mf mt x y).
  Proof.
    intros E Hp. assert (Rf : forall mf mt (x : D) ls c, @no_recipe D mf mt x = Ok (ls, c) -> ctrl_fits c) by discriminate.
    rewrite write_bodies, (write_raw_any rr no_recipe) in E.
    destruct (verbatim_reread (D := D) no_recipe ro wo zab W Rw Rf mat _ Hv tape St E) as (d0 & E' & K0 & K1 & K2).
    destruct (parse_all d0 p) as (d' & E2 & F).
    { intros mf mt ls H. destruct (K2 _ _ _ H) as (b & Hb & S). apply bodies_holds in Hb as (x & Hx & ->).
      destruct (Hp mf mt x ls Hx S) as (y & Ey & _). eauto. }
    exists d'. split; [unfold parse_tape; rewrite E'; exact E2|]. split; [|split].
    - destruct K0 as [A B]. split.
      + unfold is_dict in *. rewrite <- (Forall2_keys _ _ _ (fun a b X => proj1 X) F). exact A.
      + intros mf sub I. destruct (Forall2_in_r _ _ _ _ F I) as ([mf' s'] & I' & X & F'). cbn [fst snd] in *. subst mf'.
        unfold is_dict. rewrite <- (Forall2_keys _ _ _ (fun a b X => proj1 X) F'). exact (B _ _ I').
    - intros mf mt x Hx. destruct (K1 mf mt (bo mf mt x)) as (ls & (sub & I & J) & S); [apply bodies_holds; eauto|].
      destruct (Forall2_in_l _ _ _ _ F I) as ([mf' s'] & I' & X & F'). cbn [fst snd] in *. subst mf'.
      destruct (Forall2_in_l _ _ _ _ F' J) as ([mt' y] & J' & X & Y). cbn [fst snd] in *. subst mt'.
      destruct (Hp mf mt x ls Hx S) as (y' & Ey & Qy). rewrite Ey in Y. injection Y as ->. exists y. split; [exists s'; auto|exact Qy].
    - intros mf mt y (sub & I & J). destruct (Forall2_in_r _ _ _ _ F I) as ([mf' s'] & I' & X & F'). cbn [fst snd] in *. subst mf'.
      destruct (Forall2_in_r _ _ _ _ F' J) as ([mt' ls] & J' & X & Y). cbn [fst snd] in *. subst mt'.
      destruct (K2 mf mt ls) as (b & Hb & S); [exists s'; auto|]. apply bodies_holds in Hb as (x & Hx & ->).
      destruct (Hp mf mt x ls Hx S) as (y' & Ey & Qy). rewrite Ey in Y. injection Y as ->. eauto.
  Qed.
End File.
