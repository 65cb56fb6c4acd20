(** Decision procedures for examples of C55, C56. *)
From Coq Require Import Ascii String ZArith Bool Lia List.
From Verif Require Import PyBase PyFloat ModelFortran ModelRecords ModelTape ModelNum ModelRecipe ModelInterp ModelParser.
From Verif Require Import SpecFields SpecTape SpecInterp SpecRound SpecKinds SpecSign SpecFile ProofPyBase ProofInterp ProofInterpSec ProofKinds.
Import ListNotations.
Open Scope Z_scope.

Definition bad_key (k : key) : bool :=
  existsb (key_eqb k) [KStr $"__up"; KStr $"__abbrevs"; KStr $"__startidcs"].
(** no working keys, and none of the keys with [f] *)
Fixpoint tidy (f : key -> bool) (v : val) : bool :=
  match v with
  | VDict d => forallb (fun kv => negb (f (fst kv)) && tidy f (snd kv)) d
  | _ => true
  end.

Lemma dget_in k d v : dget k d = Some v -> In (k, v) d.
Proof.
  induction d as [|[k' v'] d IH]; cbn [dget]; [discriminate|]. destruct (key_eqb k k') eqn:E.
  - intros H. injection H as <-. apply key_eqb_eq in E. subst. now left.
  - intros H. right. auto.
Qed.

Lemma tidy_ind (R : val -> Prop) (f : key -> bool) (HN : forall v, (forall d, v <> VDict d) -> R v)
  (HD : forall d, (forall k, f k = true -> dget k d = None) -> (forall k v, dget k d = Some v -> R v) -> R (VDict d)) :
  forall v, tidy f v = true -> R v.
Proof.
  fix IH 1. intros v. destruct v as [n|s|l|d|e| | |l]; intros H; try (apply HN; discriminate).
  apply HD.
  - intros k K. destruct (dget k d) as [v|] eqn:E; [|reflexivity]. apply dget_in in E. cbn [tidy] in H. rewrite forallb_forall in H.
    apply H in E. cbn [fst snd] in E. rewrite K in E. discriminate E.
  - intros k v G. apply dget_in in G. cbn [tidy] in H. revert G H. clear -IH. induction d as [|[k' v'] d IHd]; [intros []|].
    cbn [forallb fst snd]. intros [E|E] H; apply andb_prop in H as [H1 H2].
    + injection E as <- <-. apply andb_prop in H1 as [_ H1]. exact (IH v' H1).
    + exact (IHd E H2).
Qed.

Lemma tidy_clean v : tidy bad_key v = true -> clean v.
Proof.
  apply tidy_ind; [exact cl_other|]. intros d A B. apply cl_dict; [|exact B]. intros k [->|[->| ->]]; apply A; reflexivity.
Qed.
Lemma tidy_no_mat v : tidy (key_eqb (KStr $"MAT")) v = true -> no_mat v.
Proof.
  apply tidy_ind; [exact nm_other|]. intros d A B. apply nm_dict; [|exact B]. apply A. reflexivity.
Qed.
Lemma tidy_one_mat d : forallb (fun kv => tidy (key_eqb (KStr $"MAT")) (snd kv)) d = true -> one_mat d.
Proof. intros H k v G. apply tidy_no_mat. apply dget_in in G. rewrite forallb_forall in H. exact (H _ G). Qed.

(** the conditions of [restorable] with the kinds the recipe gives to the variables *)
Definition restorableb (p : parser) (blank : bool) (o : popts) (mat mf mt : Z) (b b' : block) (s : dict) : bool :=
  let w := (6 * w_width (p_wo p))%nat in
  no_send b && good_recipe b && readable_recipe (recipe_schema b) w b' && belongs (p_wo p) (p_ro p) (recipe_schema b) [] SecV (VDict s) &&
  tidy bad_key (VDict s) && forallb (fun kv => tidy (key_eqb (KStr $"MAT")) (snd kv)) s &&
  match dget (KStr $"MAT") s with Some (VNum (NInt z)) => z =? mat | _ => false end &&
  (-1000 <? mat) && (mat <? 10000) && (-10 <? mf) && (mf <? 100) && (-100 <? mt) && (mt <? 1000) &&
  match write_recipe (write_env (p_ro p) (p_wo p) blank (p_depth p)) (p_explain p) (ended mf b') o mf mt s with
  | (Ok (lines, _), _) =>
      let body := if mf =? 0 then lines else removelast lines in
      negb (Nat.eqb (length lines) 0) && negb (Nat.eqb (length body) 0) && forallb (fun l => Nat.eqb (length l) (w + 9)) body
  | _ => false
  end.

Lemma restorableb_spec p blank o mat mf mt b b' s : find_recipe (p_recipes p) mf mt = Some (ended mf b) -> b' = b \/ b' = closed b ->
  restorableb p blank o mat mf mt b b' s = true -> restorable p blank o mat mf mt (recipe_schema b) s.
Proof.
  intros F B H. unfold restorableb in H. cbv zeta in H. repeat (apply andb_prop in H as [H ?]).
  destruct (write_recipe _ _ _ _ _ _ _) as [[[lines c]|e] d'] eqn:Wr; [|discriminate].
  repeat match goal with X : (_ && _) = true |- _ => apply andb_prop in X as [? ?] end.
  unfold restorable. cbv zeta. exists b, b'. 
  exists (if mf =? 0 then lines else removelast lines), (if mf =? 0 then [] else [last lines []]), c, d'.
  split; [exact F|]. split; [exact B|]. split; [assumption|]. split; [now apply good_recipe_spec|]. split; [assumption|].
  split; [now apply belongs_conforms|]. split; [now apply tidy_clean|]. split; [now apply tidy_one_mat|].
  split.
  { destruct (dget (KStr $"MAT") s) as [v|]; [|discriminate]. destruct v as [n| | | | | | |]; try discriminate. destruct n; try discriminate.
    match goal with X : (_ =? mat) = true |- _ => apply Z.eqb_eq in X; subst end. reflexivity. }
  split. { repeat match goal with X : (_ <? _) = true |- _ => apply Z.ltb_lt in X end. repeat split; cbn; assumption. }
  split.
  { rewrite Wr. do 3 f_equal. destruct (mf =? 0); [symmetry; apply app_nil_r|]. apply app_removelast_last. intros ->. discriminate. }
  split. { match goal with X : negb (Nat.eqb (length ?q) 0) = true |- ?q <> [] => intros E; rewrite E in X; discriminate end. }
  split; [|destruct (mf =? 0); reflexivity].
  apply Forall_forall. intros l Il. match goal with X : forallb _ _ = true |- _ => rewrite forallb_forall in X; apply X in Il end. now apply Nat.eqb_eq.
Qed.
