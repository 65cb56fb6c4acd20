(** Listing sections, locating variables, converting keys (C45). *)
From Coq Require Import Ascii String ZArith Bool Lia List Sorted Permutation.
From Verif Require Import PyBase PyFloat ModelFortran ModelRecords ModelTape SpecTape ProofTape.
From Verif Require Import ModelInterp ModelPath ModelTools SpecInterp SpecPath SpecTools.
From Verif Require Import ProofPyBase ProofInterpSec ProofInterpMap ProofInterpWrite ProofTools ProofDesc ProofDir.
Import ListNotations.
Open Scope Z_scope.

(** ** Sections *)
Section Listing.
Context {D : Type}.
Implicit Types d : mfdic (section D).

Definition pick (p : section D -> bool) d : list (Z * Z) := map fst (filter (fun e => p (snd e)) (flat d)).
Lemma unparsed_pick d : list_unparsed_sections d = pick (fun s => match s with Raw _ => true | _ => false end) d.
Proof.
  unfold list_unparsed_sections, pick, flat. induction d as [|[f sub] d IH]; [reflexivity|]. cbn [flat_map fst snd]. rewrite filter_app, map_app. f_equal; [|exact IH].
  clear. induction sub as [|[t [x|x]] sub IH]; cbn [flat_map map filter fst snd app]; [reflexivity|f_equal; exact IH|exact IH].
Qed.
Lemma parsed_pick d : list_parsed_sections d = pick (fun s => match s with Raw _ => false | _ => true end) d.
Proof.
  unfold list_parsed_sections, pick, flat. induction d as [|[f sub] d IH]; [reflexivity|]. cbn [flat_map fst snd]. rewrite filter_app, map_app. f_equal; [|exact IH].
  clear. induction sub as [|[t [x|x]] sub IH]; cbn [flat_map map filter fst snd app]; [reflexivity|exact IH|f_equal; exact IH].
Qed.
Lemma pick_in p d mf mt : In (mf, mt) (pick p d) <-> exists s, holds d mf mt s /\ p s = true.
Proof.
  unfold pick. rewrite in_map_iff. split.
  - intros ([[a b] s] & E & I). cbn [fst] in E. injection E as -> ->. apply filter_In in I as [I P]. exists s. split; [apply flat_in; exact I|exact P].
  - intros (s & H & P). exists (mf, mt, s). split; [reflexivity|]. apply filter_In. split; [apply flat_in; exact H|exact P].
Qed.
Lemma listing d : is_dict2 d ->
  NoDup (list_parsed_sections d ++ list_unparsed_sections d) /\
  (forall mf mt, In (mf, mt) (list_parsed_sections d) <-> exists x, holds d mf mt (Parsed x)) /\
  (forall mf mt, In (mf, mt) (list_unparsed_sections d) <-> exists ls, holds d mf mt (Raw ls)).
Proof.
  intros I2. rewrite unparsed_pick, parsed_pick.
  assert (A : forall mf mt, In (mf, mt) (pick (fun s => match s with Raw _ => false | _ => true end) d) <-> exists x, holds d mf mt (Parsed x)).
  { intros mf mt. rewrite pick_in. split; [intros ([x|x] & H & P); [discriminate|eauto]|intros (x & H); eauto]. }
  assert (B : forall mf mt, In (mf, mt) (pick (fun s => match s with Raw _ => true | _ => false end) d) <-> exists ls, holds d mf mt (Raw ls)).
  { intros mf mt. rewrite pick_in. split; [intros ([x|x] & H & P); [eauto|discriminate]|intros (x & H); eauto]. }
  split; [|split; assumption]. apply nodup_app.
  - apply filter_nodup. apply flat_keys_nodup. exact I2.
  - apply filter_nodup. apply flat_keys_nodup. exact I2.
  - intros [mf mt] X Y. apply A in X as (x & X). apply B in Y as (y & Y). apply (holds_lookup d mf mt _ I2) in X, Y. rewrite X in Y. discriminate.
Qed.
End Listing.

(** ** locate *)

Fixpoint locate_spec name (v : val) {struct v} : forall p, In p (locate_in name v) <-> first_stored_at name p v.
Proof.
  intros p. destruct v as [n|s|l|d| | | |]; try (cbn [locate_in In]; split; [intros []|intros H; inversion H]).
  cbn [locate_in]. unfold has_key. destruct (dget name d) as [x|] eqn:G.
  - cbn [In]. split; [intros [<-|[]]; econstructor; exact G|intros H; inversion H; subst; [left; reflexivity|congruence]].
  - rewrite in_flat_map. assert (R : forall k v, In (k, v) d -> forall q, In q (locate_in name v) <-> first_stored_at name q v).
    { clear G. induction d as [|[k' v'] d IH]; intros k v I; [destruct I|]. destruct I as [E|I]; [injection E as <- <-; exact (locate_spec name v')|exact (IH k v I)]. }
    split.
    + intros ([k v] & I & J). cbn [fst snd] in J. apply in_map_iff in J as (q & <- & J). apply (R k v I) in J. exact (fs_below name d k v q G I J).
    + intros H. inversion H as [? ? G2|? k v q G2 I J]; subst; [congruence|]. exists (k, v). split; [exact I|]. cbn [fst snd]. apply in_map_iff. exists q. split; [reflexivity|]. apply (R k v I). exact J.
Defined.
Lemma located d name p : In p (locate d name) <-> first_stored_at name p (VDict d).
Proof. apply locate_spec. Qed.
Lemma first_is_stored name p v : first_stored_at name p v -> stored_at name p v.
Proof. induction 1; econstructor; eauto. Qed.
Lemma stored_lookup name p v : unique_data v -> stored_at name p v -> exists x, path_lookup p v = Ok x.
Proof.
  intros U S. induction S as [d v G|d k v p I S IH].
  - exists v. cbn [path_lookup item]. rewrite G. reflexivity.
  - inversion U as [? U1 U2|? N]; subst; [|exfalso; exact (N d eq_refl)]. cbn [path_lookup item]. rewrite (unique_dget d k v U1 I). cbn [bind]. apply IH. exact (U2 k v I).
Qed.
Lemma values_found d name : unique_data (VDict d) -> exists vs, get_endf_values d (locate d name) = Ok vs /\ length vs = length (locate d name).
Proof.
  intros U. unfold get_endf_values. assert (F : forall p, In p (locate d name) -> exists x, path_lookup p (VDict d) = Ok x).
  { intros p I. apply located in I. apply first_is_stored in I. exact (stored_lookup _ _ _ U I). }
  induction (locate d name) as [|p l IH]; [exists []; auto|]. destruct (F p (or_introl eq_refl)) as (x & X). destruct IH as (vs & V & L); [intros q I; apply F; right; exact I|].
  exists (x :: vs). cbn [mapM]. rewrite X. cbn [bind]. rewrite V. split; [reflexivity|]. cbn [length]. congruence.
Qed.
Fixpoint locate_nodup name (v : val) {struct v} : unique_data v -> NoDup (locate_in name v).
Proof.
  intros U. destruct v as [n|s|l|d| | | |]; try (cbn [locate_in]; constructor).
  cbn [locate_in]. unfold has_key. destruct (dget name d) as [x|]; [repeat constructor; intros []|].
  assert (H : unique_keys d /\ forall k v, In (k, v) d -> unique_data v) by (inversion U as [? U1 U2|? N]; subst; [auto|exfalso; exact (N d eq_refl)]).
  destruct H as [U1 U2]. clear U. unfold unique_keys in U1. induction d as [|[k v] d IH]; cbn [flat_map fst snd]; [constructor|]. cbn [map fst] in U1.
  apply nodup_app.
  - apply FinFun.Injective_map_NoDup; [intros a b E; injection E; auto|]. apply (locate_nodup name v). apply (U2 k). left. reflexivity.
  - apply IH; [inversion U1; assumption|]. intros k' v' I. apply (U2 k'). right. exact I.
  - intros p A B. apply in_map_iff in A as (q & <- & _). apply in_flat_map in B as ([k' v'] & I & B). apply in_map_iff in B as (q' & E & _). cbn [fst] in E. injection E as -> _.
    inversion U1; subst. apply H1. apply in_map_iff. exists (k, v'). auto.
Defined.

(** ** Keys from JSON *)

Definition jd (d : dict) : dict := map (fun kv => (KStr (str_of_key (fst kv)), json_keys (snd kv))) d.
Definition jv (d : dict) : dict := map (fun kv => (fst kv, json_keys (snd kv))) d.
Definition is_int (kv : key * val) : bool := match fst kv with KInt _ => true | KStr _ => false end.
Definition names (d : dict) : dict := filter (fun kv => negb (is_int kv)) d.
Definition ints (d : dict) : dict := filter is_int d.

Lemma dget_none k (d : dict) : ~ In k (map fst d) -> dget k d = None.
Proof. intros H. destruct (dget k d) as [v|] eqn:E; [|reflexivity]. exfalso. apply H. apply dget_keys. eauto. Qed.
Lemma jv_names_none z d : dget (KInt z) (jv (names d)) = None.
Proof.
  apply dget_none. unfold jv, names. rewrite map_map. cbn [fst]. intros I. apply in_map_iff in I as ([k v] & E & I). apply filter_In in I as [_ I]. cbn [fst] in E. subst k. discriminate.
Qed.
Lemma jd_int_none z d : dget (KInt z) (jd d) = None.
Proof. apply dget_none. unfold jd. rewrite map_map. cbn [fst]. intros I. apply in_map_iff in I as (kv & E & _). discriminate. Qed.

(** no two keys give the same string *)
Definition apart (d : dict) : Prop := NoDup (map (fun kv => str_of_key (fst kv)) d) /\ (forall s v, In (KStr s, v) d -> int_of_str s = None) /\ unique_keys d.
Lemma str_of_Z_inj a b : str_of_Z a = str_of_Z b -> a = b.
Proof. intros E. pose proof (int_of_str_of_Z a) as A. rewrite E, int_of_str_of_Z in A. congruence. Qed.
Lemma apart_of d : unique_keys d -> (forall s v, In (KStr s, v) d -> int_of_str s = None) -> apart d.
Proof.
  intros U N. split; [|split; assumption]. unfold unique_keys in U. induction d as [|[k v] d IH]; cbn [map fst] in *; [constructor|]. inversion U as [|? ? U1 U2]; subst.
  constructor; [|apply IH; [exact U2|]; intros s w I; apply (N s w); right; exact I].
  intros I. apply in_map_iff in I as ([k' v'] & E & I). cbn [fst] in E. assert (k' = k).
  { destruct k as [z|s], k' as [z'|s']; cbn [str_of_key] in E.
    - f_equal. exact (str_of_Z_inj _ _ E).
    - exfalso. assert (X : int_of_str s' = None) by (apply (N s' v'); right; exact I). rewrite E, int_of_str_of_Z in X. discriminate.
    - exfalso. assert (X : int_of_str s = None) by (apply (N s v); left; reflexivity). rewrite <- E, int_of_str_of_Z in X. discriminate.
    - congruence. }
  subst k'. apply U1. apply in_map_iff. exists (k, v'). auto.
Qed.

Lemma pass rest : forall done, apart (done ++ rest) ->
  int_keys_pass (map (fun kv => KStr (str_of_key (fst kv))) rest) (jv (names done) ++ jd rest ++ jv (ints done)) = Ok (jv (names (done ++ rest)) ++ jv (ints (done ++ rest))).
Proof.
  induction rest as [|[k v] rest IH]; intros done A; [cbn [map int_keys_pass jd app]; rewrite app_nil_r; reflexivity|].
  replace (done ++ (k, v) :: rest) with ((done ++ [(k, v)]) ++ rest) in * by (rewrite <- app_assoc; reflexivity).
  specialize (IH _ A). destruct A as (A1 & A2 & A3). cbn [map int_keys_pass fst int_key]. destruct k as [z|s]; cbn [str_of_key].
  - rewrite int_of_str_of_Z. unfold has_key.
    assert (NI : dget (KInt z) (jv (ints done)) = None).
    { apply dget_none. unfold jv, ints. rewrite map_map. cbn [fst]. intros I. apply in_map_iff in I as ([k' v'] & E & I). apply filter_In in I as [I _]. cbn [fst] in E. subst k'.
      unfold unique_keys in A3. rewrite !map_app in A3. apply NoDup_remove_1 in A3 || idtac. clear -A3 I.
      rewrite <- app_assoc in A3. cbn [map app fst] in A3. apply NoDup_remove_2 in A3. apply A3. apply in_app_iff. left. apply in_map_iff. exists (KInt z, v'). auto. }
    rewrite dget_app_none by apply jv_names_none. rewrite dget_app_none by apply jd_int_none. rewrite NI.
    assert (NN : dget (KStr (str_of_Z z)) (jv (names done)) = None).
    { apply dget_none. unfold jv, names. rewrite map_map. cbn [fst]. intros I. apply in_map_iff in I as ([k' v'] & E & I). apply filter_In in I as [I _]. cbn [fst] in E. subst k'.
      assert (X : int_of_str (str_of_Z z) = None) by (apply (A2 _ v'); apply in_app_iff; left; apply in_app_iff; left; exact I). rewrite int_of_str_of_Z in X. discriminate. }
    unfold lookup. rewrite dget_app_none by exact NN. cbn [jd map app dget fst snd str_of_key]. rewrite key_eqb_refl. cbn [bind].
    rewrite dset_app_none by apply jv_names_none. change ((KStr (str_of_Z z), json_keys v) :: ?r ++ ?t) with (([(KStr (str_of_Z z), json_keys v)] ++ r) ++ t).
    rewrite dset_app_none by (cbn [app dget]; change (map (fun kv : key * val => (KStr (str_of_key (fst kv)), json_keys (snd kv))) rest) with (jd rest); cbn [key_eqb]; apply jd_int_none).
    rewrite dset_new by exact NI. rewrite ddel_app_none by exact NN. cbn [app ddel]. rewrite key_eqb_refl.
    replace (jv (names (done ++ [(KInt z, v)]))) with (jv (names done)) in IH by (unfold names; rewrite filter_app; cbn [filter is_int fst negb]; rewrite app_nil_r; reflexivity).
    replace (jv (ints (done ++ [(KInt z, v)]))) with (jv (ints done) ++ [(KInt z, json_keys v)]) in IH by (unfold ints, jv; rewrite filter_app, map_app; reflexivity).
    exact IH.
  - rewrite (A2 s v) by (apply in_app_iff; left; apply in_app_iff; right; left; reflexivity).
    replace (jv (ints (done ++ [(KStr s, v)]))) with (jv (ints done)) in IH by (unfold ints; rewrite filter_app; cbn [filter is_int fst]; rewrite app_nil_r; reflexivity).
    replace (jv (names (done ++ [(KStr s, v)]))) with (jv (names done) ++ [(KStr s, json_keys v)]) in IH by (unfold names, jv; rewrite filter_app, map_app; reflexivity).
    rewrite <- app_assoc in IH. exact IH.
Qed.

Fixpoint no_dict_json (v : val) {struct v} : no_dict v -> json_keys v = v.
Proof.
  intros N. destruct v as [n|s|l|d| | | |]; try reflexivity.
  - cbn [json_keys]. f_equal. assert (F : Forall no_dict l) by (inversion N as [? F|? A B]; subst; [exact F|exfalso; exact (B l eq_refl)]). clear N.
    induction l as [|x l IH]; [reflexivity|]. cbn [map]. f_equal; [apply no_dict_json; inversion F; assumption|apply IH; inversion F; assumption].
  - exfalso. inversion N as [|? A B]; subst. exact (A d eq_refl).
Defined.
Lemma no_dict_not v d : no_dict v -> v <> VDict d.
Proof. intros H. inversion H; subst; [discriminate|auto]. Qed.

Lemma split_perm (d : dict) : Permutation d (names d ++ ints d).
Proof.
  unfold names, ints. induction d as [|kv d IH]; [constructor|]. cbn [filter]. destruct (is_int kv); cbn [negb].
  - rewrite IH at 1. apply Permutation_middle.
  - cbn [app]. constructor. exact IH.
Qed.

Lemma sanitized n : forall d, named_data n (VDict d) -> exists e, sanitize n (jd d) = Ok e /\ same_data (VDict d) (VDict e).
Proof.
  induction n as [|n IH]; intros d N.
  { inversion N as [? ? H|]; subst. exfalso. exact (no_dict_not _ d H eq_refl). }
  assert (X : unique_keys d /\ (forall s v, In (KStr s, v) d -> int_of_str s = None) /\ forall k v, In (k, v) d -> named_data n v).
  { inversion N as [? ? H|]; subst; [exfalso; exact (no_dict_not _ d H eq_refl)|auto]. }
  destruct X as (U & S & R). cbn [sanitize]. replace (map fst (jd d)) with (map (fun kv : key * val => KStr (str_of_key (fst kv))) d) by (unfold jd; rewrite map_map; reflexivity).
  pose proof (pass d [] (apart_of d U S)) as P. cbn [app names ints filter jv map] in P. rewrite app_nil_r in P. rewrite P. cbn [bind].
  change (map (fun kv : key * val => (fst kv, json_keys (snd kv))) ?x) with (jv x). unfold jv. rewrite <- map_app. fold (jv (names d ++ ints d)).
  set (p := names d ++ ints d). assert (PP : Permutation d p) by apply split_perm.
  assert (M : exists e, mapM (fun kv => match snd kv with VDict x => do y <- sanitize n x; Ok (fst kv, VDict y) | v => Ok (fst kv, v) end) (jv p) = Ok e /\
    Forall2 (fun a b => fst a = fst b /\ same_data (snd a) (snd b)) p e).
  { assert (Rp : forall k v, In (k, v) p -> named_data n v) by (intros k v I; apply (R k v); apply (Permutation_in _ (Permutation_sym PP)); exact I).
    clear -IH Rp. induction p as [|[k v] p IHp]; [exists []; split; [reflexivity|constructor]|]. destruct IHp as (e & E & F); [intros k' v' I; apply (Rp k'); right; exact I|].
    pose proof (Rp k v (or_introl eq_refl)) as V. cbn [jv map mapM fst snd].
    assert (Y : exists y, (match json_keys v with VDict x => do y <- sanitize n x; Ok (k, VDict y) | v => Ok (k, v) end) = Ok (k, y) /\ same_data v y).
    { destruct v as [q|q|l|dd| | | |]; try (eexists; split; [reflexivity|]; constructor; discriminate).
      - assert (ND : no_dict (VList l)) by (inversion V; assumption). rewrite (no_dict_json _ ND). eexists. split; [reflexivity|]. constructor. discriminate.
      - destruct (IH dd V) as (y & E1 & E2). exists (VDict y). cbn [json_keys]. fold (jd dd). rewrite E1. split; [reflexivity|exact E2]. }
    destruct Y as (y & Y1 & Y2). rewrite Y1. cbn [bind]. unfold jv in E. rewrite E. cbn [bind]. eexists. split; [reflexivity|]. constructor; [split; [reflexivity|exact Y2]|exact F]. }
  destruct M as (e & E & F). unfold jv in E |- *. exists e. split; [exact E|].
  assert (KE : map fst e = map fst p) by (clear -F; induction F as [|a b ? ? [H _] ? IH]; [reflexivity|cbn [map]; congruence]).
  assert (Up : unique_keys p) by (unfold unique_keys in *; apply (Permutation_NoDup (Permutation_map fst PP)); exact U).
  assert (Ue : unique_keys e) by (unfold unique_keys in *; rewrite KE; exact Up).
  assert (GP : forall k, dget k p = dget k d).
  { intros k. destruct (dget k d) as [x|] eqn:G.
    - apply unique_dget; [exact Up|]. apply (Permutation_in _ PP). apply dget_in. exact G.
    - apply dget_none. intros I. apply dget_keys in I as (y & I). apply dget_in in I. apply (Permutation_in _ (Permutation_sym PP)) in I. rewrite (unique_dget d k y U I) in G. discriminate. }
  constructor.
  - intros k. rewrite <- GP. rewrite <- !dget_keys, KE. tauto.
  - intros k x y X Y. rewrite <- GP in X. clear -F X Y. induction F as [|[k1 v1] [k2 v2] p e [H1 H2] F IH]; [discriminate|]. cbn [fst snd dget] in *. subst k2. destruct (key_eqb k k1); [congruence|]. apply IH; assumption.
Qed.
