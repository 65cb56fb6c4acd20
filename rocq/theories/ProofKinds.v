(** Deciding [conforms] and [in_columns], for the examples of C31. *)
From Coq Require Import Ascii String ZArith Bool Lia List.
From Coq Require Import Floats.SpecFloat.
From Verif Require Import PyBase PyFloat ModelFortran ModelRecords ModelNum ModelRecipe ModelInterp.
From Verif Require Import SpecFields SpecInterp SpecRound SpecKinds. 
From Verif Require Import ProofPyBase.
Import ListNotations.
Open Scope Z_scope.

Section Check.
  Variable wo : wopts.
  Variable ro : ropts.
  Variable G : schema.

  Definition reads_back (n : num) : option num :=
    match float2fortstr wo n with
    | Ok s => if (length s =? w_width wo)%nat
              then match read_fort_float ro s with Ok w => if num_eqb w w then Some w else None | Err _ => None end
              else None
    | Err _ => None
    end.
  Lemma reads_back_spec n w : reads_back n = Some w -> reads_as wo ro n w.
  Proof.
    unfold reads_back, reads_as, float_rt. destruct (float2fortstr wo n) as [s|] eqn:E; [|discriminate].
    destruct (Nat.eqb_spec (length s) (w_width wo)); [|discriminate].
    destruct (read_fort_float ro s) as [x|] eqn:E2; [|discriminate]. destruct (num_eqb x x) eqn:E3; [|discriminate].
    intros [= <-]. eauto.
  Qed.

  Definition flt_ok (v : val) : bool :=
    match v with VNum n => match reads_back n with Some _ => true | None => false end | _ => false end.
  Definition int_ok (v : val) : bool :=
    match v with VNum (NInt z) => Z.leb (Z.abs z) (2 ^ 53) | _ => false end.
  Definition col_ok (v : val) : bool :=
    match v with VNum (NInt z) => Z.leb (Z.abs z) (2 ^ 53) && (- 10 ^ (Z.of_nat (w_width wo) - 1) <? z) && (z <? 10 ^ Z.of_nat (w_width wo)) | _ => false end.
  Definition printableb (k : kind) (v : val) : bool :=
    match k, v with
    | IntV, _ | IntS, _ => int_ok v
    | IntN, _ | IntM, _ => int_ok v && match v with VNum (NInt z) => 0 <=? z | _ => false end
    | FltV, _ | FltS, _ => flt_ok v
    | FltU, VList l => forallb flt_ok l
    | FltU, _ => flt_ok v
    | IntL, VList l => forallb col_ok l
    | FltL, VList l => forallb flt_ok l
    | TextV, VStr _ => true
    | _, _ => false
    end.
  Lemma flt_ok_spec l : forallb flt_ok l = true -> exists a b, l = map VNum a /\ Forall2 (reads_as wo ro) a b.
  Proof.
    induction l as [|v l IH]; cbn [forallb]; intros H; [exists [], []; auto|].
    apply andb_prop in H as [H1 H2]. destruct (IH H2) as (a & b & -> & F). destruct v as [n| | | | | | |]; try discriminate H1.
    cbn [flt_ok] in H1. destruct (reads_back n) as [w|] eqn:E; [|discriminate H1].
    exists (n :: a), (w :: b). split; [reflexivity|]. constructor; [now apply reads_back_spec|exact F].
  Qed.
  Lemma col_ok_spec l : forallb col_ok l = true -> exists a, l = map vint a /\ Forall (small_int (w_width wo)) a.
  Proof.
    induction l as [|v l IH]; cbn [forallb]; intros H; [exists []; auto|].
    apply andb_prop in H as [H1 H2]. destruct (IH H2) as (a & -> & F). destruct v as [[z| |]| | | | | | |]; try discriminate H1.
    cbn [col_ok] in H1. apply andb_prop in H1 as [H1 H4]. apply andb_prop in H1 as [H1 H3].
    apply Z.leb_le in H1. apply Z.ltb_lt in H3, H4.
    exists (z :: a). split; [reflexivity|]. constructor; [split; [split; assumption|exact H1]|exact F].
  Qed.
  Lemma printableb_spec k v : printableb k v = true -> printable wo ro k v.
  Proof.
    assert (FI : forall K, admits K IntV = true -> count K = false -> int_ok v = true -> printable wo ro K v).
    { intros K A N H. destruct v as [[z| |]| | | | | | |]; try discriminate H. cbn [int_ok] in H. apply Z.leb_le in H. constructor; [exact A|exact H|congruence]. }
    assert (FF : forall K, admits K FltV = true -> flt_ok v = true -> printable wo ro K v).
    { intros K A H. destruct (flt_ok_spec [v]) as (a & b & E & F); [cbn [forallb]; now rewrite H|].
      destruct F as [|n w a b R F]; [discriminate E|]. injection E as -> _. econstructor; [exact A|exact R]. }
    assert (FL : forall K l, admits K FltL = true -> v = VList l -> forallb flt_ok l = true -> printable wo ro K v).
    { intros K l A -> H. destruct (flt_ok_spec _ H) as (a & b & -> & F). econstructor; [exact A|exact F]. }
    destruct k; cbn [printableb]; intros H; try (apply FI; [reflexivity|reflexivity|exact H]); auto.
    - destruct v; try discriminate H. destruct (col_ok_spec _ H) as (a & -> & F). now constructor.
    - destruct v; try discriminate H. eapply FL; eauto.
    - destruct v; try discriminate H. now constructor.
    - destruct v; discriminate H.
    - destruct v; auto. eapply FL; eauto.
    - apply andb_prop in H as [H1 H2]. destruct v as [[z| |]| | | | | | |]; try discriminate H1. cbn [int_ok] in H1. apply Z.leb_le in H1, H2.
      constructor; [reflexivity|exact H1|auto].
    - apply andb_prop in H as [H1 H2]. destruct v as [[z| |]| | | | | | |]; try discriminate H1. cbn [int_ok] in H1. apply Z.leb_le in H1, H2.
      constructor; [reflexivity|exact H1|auto].
  Qed.

  Fixpoint belongs (s : list str) (k : kind) (v : val) {struct v} : bool :=
    match v with
    | VDict d =>
        negb (scalar k) &&
        (fix all (d : dict) : bool :=
           match d with
           | [] => true
           | (KStr y, w) :: r =>
               (internalb y || match G s y with Some k' => belongs (y :: s) k' w | None => false end) && all r
           | (KInt _, w) :: r => match s with [] => false | _ => belongs s k w end && all r
           end) d
    | _ => printableb k v
    end.
  Definition belongs_key (s : list str) (k : kind) (q : key) (w : val) : bool :=
    match q with
    | KStr y => internalb y || match G s y with Some k' => belongs (y :: s) k' w | None => false end
    | KInt _ => match s with [] => false | _ => belongs s k w end
    end.
  Lemma belongs_dict s k d : belongs s k (VDict d) = true ->
    forall q w, dget q d = Some w -> belongs_key s k q w = true.
  Proof.
    induction d as [|[p v] d IH]; intros H q w; [discriminate|].
    assert (X : belongs_key s k p v = true /\ belongs s k (VDict d) = true).
    { destruct p; cbn [belongs] in H; apply andb_prop in H as [H0 H]; apply andb_prop in H as [H1 H2];
        (split; [exact H1|]); cbn [belongs]; now rewrite H0, H2. }
    destruct X as [X1 X2]. cbn [dget]. destruct (key_eqb q p) eqn:E.
    - intros [= <-]. destruct q, p; cbn [key_eqb] in E; try discriminate E.
      + apply Z.eqb_eq in E as <-. exact X1.
      + apply str_eqb_eq in E as <-. exact X1.
    - now apply IH.
  Qed.
  Lemma belongs_path p : forall s k v u, belongs s k v = true -> user_path p -> path_get p v = Some u ->
    exists k', kind_at G s k p = Some k' /\ (is_dict u /\ scalar k' = false \/ printable wo ro k' u).
  Proof.
    induction p as [|q p IH]; intros s k v u B U H.
    - injection H as <-. exists k. split; [reflexivity|]. destruct v; try (right; apply printableb_spec; exact B). left. cbn [belongs] in B. apply andb_prop in B as [B _]. split; [now exists d|now apply negb_true_iff].
    - cbn [path_get] in H. destruct v as [| | |d| | | |]; try discriminate H. destruct (dget q d) as [w|] eqn:E; [|discriminate H].
      pose proof (belongs_dict _ _ _ B _ _ E) as X. inversion U as [|? ? U1 U2]; subst.
      destruct q as [z|y]; cbn [belongs_key] in X; cbn [kind_at].
      + destruct s as [|y s]; [discriminate X|]. eapply IH; eauto.
      + destruct (internalb y) eqn:I.
        { exfalso. apply U1. unfold internalb in I. apply orb_prop in I as [I|I]; [apply orb_prop in I as [I|I]|];
            apply str_eqb_eq in I as ->; unfold working_key; auto. }
        cbn [orb] in X. destruct (G s y) as [k'|]; [|discriminate X]. eapply IH; eauto.
  Qed.
  Lemma belongs_conforms d : belongs [] SecV (VDict d) = true -> conforms wo ro G d.
  Proof. intros B p v U H. eapply belongs_path; eauto. Qed.
End Check.

Definition in_columnsb (wo : wopts) (lines : list str) : bool :=
  match rev lines with
  | [] => false
  | send :: body => forallb (fun l => length l =? 6 * w_width wo + 9)%nat body &&
                    (length send =? 6 * w_width wo + 9 + (if w_linenum wo then 5 else 0))%nat
  end.
Lemma in_columnsb_spec wo lines : in_columnsb wo lines = true -> in_columns wo lines.
Proof.
  unfold in_columnsb, in_columns. destruct (rev lines) as [|send body] eqn:E; [discriminate|]. intros H.
  apply andb_prop in H as [H1 H2]. apply Nat.eqb_eq in H2.
  exists (rev body), send. repeat split; [|apply Forall_rev|exact H2].
  - rewrite <- (rev_involutive lines), E. reflexivity.
  - apply Forall_forall. intros x Hx. rewrite forallb_forall in H1. apply Nat.eqb_eq, H1, Hx.
Qed.

Lemma good_of l : (forall e, In e l -> internalb (snd (fst e)) = false) ->
  good_schema (fun s x => if ctrl_place s x then Some IntV else schema_of l s x).
Proof.
  intros H. split; [|repeat split; reflexivity]. intros s x I.
  assert (ctrl_place s x = false) as ->.
  { destruct s; [|reflexivity]. destruct I as [-> |[-> | ->]]; reflexivity. }
  unfold schema_of.
  match goal with |- context [filter ?f ?q] => destruct (filter f q) as [|e r] eqn:E end; [reflexivity|]. exfalso.
  assert (E1 : In e (e :: r)) by now left. rewrite <- E in E1. apply filter_In in E1 as [E1 E2].
  apply andb_prop in E2 as [_ E2]. apply str_eqb_eq in E2. subst x.
  apply H in E1. unfold internalb in E1. destruct I as [I|[I|I]]; rewrite I in E1; cbn in E1; discriminate E1.
Qed.
Definition good_recipe (b : block) : bool := forallb (fun e => negb (internalb (snd (fst e)))) (block_kinds [] [] b).
Lemma good_recipe_spec b : good_recipe b = true -> good_schema (recipe_schema b).
Proof.
  intros H. apply good_of. intros e He. unfold good_recipe in H. rewrite forallb_forall in H. now apply negb_true_iff, H.
Qed.
