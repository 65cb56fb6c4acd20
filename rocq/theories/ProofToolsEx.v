(** Concrete cases and counterexamples for C41, C43-C46. *)
From Coq Require Import Ascii String ZArith Bool Lia List Sorted.
From Coq Require Import Floats.SpecFloat.
From Verif Require Import PyBase PyFloat ModelFortran ModelRecords ModelTape SpecTape.
From Verif Require Import ModelInterp ModelPath ModelTools SpecInterp SpecPath SpecTools.
From Verif Require Import ProofPyBase ProofInterpSec ProofTools ProofDesc ProofDir ProofLocate.
Import ListNotations.
Open Scope Z_scope.

Definition flt (n d : Z) : val := VNum (NFlt (round64 false n d)).

(** atol = 1/100000000, rtol = 1/100000 *)
Definition cmp_ex (fail : bool) : cmpopts :=
  {| c_atol := round64 false 1 100000000; c_rtol := round64 false 1 100000; c_strlen := false; c_rstrip := true; c_cut := None; c_fail := fail |}.
Definition ex_cmp1 : dict := [ (KInt 1, VNum (NInt 3)); (KStr $"A", VStr $"abc "); (KStr $"B", VList [flt 1 1; flt 2 1]) ].
Definition ex_cmp2 : dict := [ (KStr $"B", VList [flt 100001 100000; flt 2001 1000]); (KStr $"A", VStr $"abc"); (KStr $"C", VNone); (KInt 1, flt 3 1) ].

Lemma cmp_example :
  compare_objects (cmp_ex false) (VDict ex_cmp1) (VDict ex_cmp2) = (Ok false, [ ([], DOnly2); ($"/B[1]", DValue); ($"/1", DType) ]) /\
  compare_objects (cmp_ex true) (VDict ex_cmp1) (VDict ex_cmp2) = (Err IndexError, []) /\
  compare_objects (cmp_ex true) (VDict ex_cmp1) (VDict (rev ex_cmp1)) = (Ok true, []) /\
  finite_data (VDict ex_cmp1) /\ nonneg_float (c_atol (cmp_ex true)) /\ nonneg_float (c_rtol (cmp_ex true)).
Proof.
  split; [vm_compute; reflexivity|]. split; [vm_compute; reflexivity|]. split; [vm_compute; reflexivity|]. split.
  - apply fd_dict. intros k x G. apply dget_in in G. cbn [ex_cmp1 In] in G. destruct G as [E|[E|[E|[]]]]; injection E as _ <-; [constructor|constructor|].
    constructor. repeat constructor; (eapply fd_float; [constructor|vm_compute; reflexivity]).
  - split; right; vm_compute; eexists; eexists; reflexivity.
Qed.

Lemma infinity_refuted : exists a, same (cmp_ex false) a a <-> False.
Proof.
  exists (VNum (NFlt (S754_infinity false))). split; [|intros []]. intros S. inversion S as [|? ? x y X Y Q| | | |]; subst. inversion X; inversion Y; subst. vm_compute in Q. discriminate.
Qed.
Lemma symmetric_refuted : exists o a b, nonneg_float (c_atol o) /\ nonneg_float (c_rtol o) /\ same o a b /\ ~ same o b a.
Proof.
  exists {| c_atol := S754_zero false; c_rtol := round64 false 1 2; c_strlen := false; c_rstrip := true; c_cut := None; c_fail := false |}, (flt 1 1), (flt 2 1).
  split; [left; reflexivity|]. split; [right; vm_compute; eexists; eexists; reflexivity|]. split.
  - econstructor; [constructor|constructor|vm_compute; reflexivity].
  - intros S. inversion S as [|? ? x y X Y Q| | | |]; subst. inversion X; inversion Y; subst. vm_compute in Q. discriminate.
Qed.

Definition ex_sections : mfdic (list str) := [ (0, [(0, [ $"head" ])]); (1, [(451, [ $"a" ])]); (3, [(1, [ $"b"; $"c" ]); (2, [ $"d" ])]) ].
Definition ex_451 : dict := [ (KStr $"NWD", VNum (NInt 7)); (KStr $"MFx", column [3]); (KStr $"MTx", column [1]); (KStr $"MOD", column [7]) ].

Lemma ex_451_proper : proper_directory ex_451.
Proof.
  right. assert (C : forall c l, dget (KStr c) ex_451 = Some (column [l]) -> forall i x, cell c ex_451 i x <-> i = KInt 1 /\ x = l).
  { intros c l E i x. unfold cell. rewrite E. split.
    - intros (d & D & G). injection D as <-. cbn [number_from map fst snd dget] in G. destruct (key_eqb i (KInt 1)) eqn:K; [|discriminate]. apply key_eqb_eq in K. injection G as <-. auto.
    - intros [-> ->]. eexists. split; [reflexivity|]. reflexivity. }
  assert (H : forall i mf mt md, had_mod ex_451 i mf mt md <-> i = KInt 1 /\ mf = 3 /\ mt = 1 /\ md = 7).
  { intros. unfold had_mod. rewrite (C $"MFx" 3), (C $"MTx" 1), (C $"MOD" 7) by reflexivity. tauto. }
  split.
  - eexists. split; [reflexivity|]. split; [unfold unique_keys; repeat constructor; intros []|]. intros i [<-|[]]. exists 3, 1, 7. apply H. auto.
  - intros i j mf mt md md' A B. apply H in A as [-> _]. apply H in B as [-> _]. reflexivity.
Qed.
Ltac nd := repeat (constructor; [cbn [In]; intuition lia|]); constructor.
Lemma ex_sections_dict : is_dict2 ex_sections.
Proof.
  split; [unfold is_dict; cbn [map fst ex_sections]; nd|]. intros mf sub I. cbn [ex_sections In] in I.
  destruct I as [E|[E|[E|[]]]]; injection E as <- <-; unfold is_dict; cbn [map fst]; nd.
Qed.
Ltac asc := repeat (constructor; [|repeat (constructor; [lia|]); constructor]); constructor.
Lemma directory_example : is_dict2 ex_sections /\ ascending2 ex_sections /\ proper_directory ex_451 /\
  exists new, update_directory ex_sections ex_451 = Ok new /\ dget (KStr $"NXC") new = Some (VNum (NInt 3)) /\
    entry new 1 1 451 14 0 /\ entry new 2 3 1 2 7 /\ entry new 3 3 2 1 0.
Proof.
  split; [exact ex_sections_dict|]. split.
  { split; [unfold ascending; cbn [map fst ex_sections]; asc|]. intros mf sub I. cbn [ex_sections In] in I.
    destruct I as [E|[E|[E|[]]]]; injection E as <- <-; unfold ascending; cbn [map fst]; asc. }
  split; [exact ex_451_proper|]. eexists. split; [vm_compute; reflexivity|]. split; [vm_compute; reflexivity|].
  repeat split; eexists; (split; [vm_compute; reflexivity|vm_compute; reflexivity]).
Qed.
Lemma not_counted_refuted : exists m new, is_dict2 m /\ proper_directory ex_451 /\
  update_directory m ex_451 = Ok new /\ dget (KStr $"NXC") new = Some (VNum (NInt 1)) /\
  (exists nc md, entry new 1 1 452 nc md) /\ (exists nc md, entry new 2 1 451 nc md).
Proof.
  exists [ (1, [(452, [ $"a" ])]) ]. eexists. split.
  { split; [unfold is_dict; cbn [map fst]; nd|]. intros mf sub [E|[]]. injection E as <- <-. unfold is_dict. cbn [map fst]. nd. }
  split; [exact ex_451_proper|]. split; [vm_compute; reflexivity|]. split; [vm_compute; reflexivity|].
  split; [exists 1, 0|exists 12, 0]; repeat split; eexists; (split; [vm_compute; reflexivity|vm_compute; reflexivity]).
Qed.

Lemma one_line_ljust s : no_break s -> one_line (ljust 66 s).
Proof.
  intros H. split; [intros E; pose proof (length_ljust 66 s) as L; rewrite E in L; cbn [length] in L; lia|]. unfold ljust. apply Forall_app. split; [exact H|].
  unfold spaces. apply Forall_forall. intros c I. apply repeat_spec in I. subst c. reflexivity.
Qed.
Lemma description_example : let new := set_description ($"one" ++ lf :: lf :: $"three") ex_451 in
  describes new [ ljust 66 $"one"; ljust 66 []; ljust 66 $"three" ] /\ Forall one_line [ ljust 66 $"one"; ljust 66 []; ljust 66 $"three" ] /\
  (exists new', insert_description $"two" 1 new = Ok new' /\ describes new' [ ljust 66 $"one"; ljust 66 $"two"; ljust 66 []; ljust 66 $"three" ]).
Proof.
  intros new. assert (D : describes new [ ljust 66 $"one"; ljust 66 []; ljust 66 $"three" ]) by exact (set_describes ($"one" ++ lf :: lf :: $"three") ex_451).
  assert (O : Forall one_line [ ljust 66 $"one"; ljust 66 []; ljust 66 $"three" ]).
  { constructor; [apply one_line_ljust; repeat constructor|]. constructor; [apply one_line_ljust; constructor|]. constructor; [apply one_line_ljust; repeat constructor|constructor]. }
  split; [exact D|]. split; [exact O|].
  destruct (insert_lines $"two" 1 _ new D O) as (new' & E & D' & _); [lia|right; cbn; lia|]. exists new'. split; [exact E|]. exact D'.
Qed.
Lemma trimmed_refuted : exists text l, describes (set_description text ex_451) [l] /\ (66 < length l)%nat.
Proof. exists (repeat "x"%char 70), (repeat "x"%char 70). split; [exact (set_describes (repeat "x"%char 70) ex_451)|]. rewrite repeat_length. lia. Qed.
Lemma insert_empty_refuted : exists text old mt451 mt451', describes mt451 old /\ Forall one_line old /\
  splitlines text = [ $"two"; [] ] /\ insert_description text 1 mt451 = Ok mt451' /\ length old = 1%nat /\
  dget (KStr $"NWD") mt451' = Some (VNum (NInt (2 + 5))).
Proof.
  exists ($"two" ++ [lf; lf]), [ ljust 66 $"one" ], (set_description $"one" ex_451). eexists. split; [exact (set_describes $"one" ex_451)|].
  split; [constructor; [apply one_line_ljust; repeat constructor|constructor]|]. split; [vm_compute; reflexivity|]. split; [vm_compute; reflexivity|]. split; [reflexivity|]. vm_compute. reflexivity.
Qed.

Definition ex_nested : dict :=
  [ (KInt 1, VDict [ (KInt 451, VDict [ (KStr $"ZA", flt 1001 1); (KStr $"LRP", VNum (NInt 1)) ]) ]);
    (KInt 3, VDict [ (KInt 1, VDict [ (KStr $"xs", VList [flt 1 1]); (KStr $"ZA", flt 1001 1) ]); (KInt 2, VList [VStr $"raw"]) ]) ].
Ltac cases I := cbn [In] in I; repeat (destruct I as [I|I]; [injection I as <- <-|]); [..|destruct I].
Ltac ndk := unfold unique_keys; cbn [map fst]; repeat (constructor; [cbn [In]; intuition discriminate|]); constructor.
Lemma ex_nested_unique : unique_data (VDict ex_nested).
Proof.
  apply ud_dict; [ndk|]. intros k v I. unfold ex_nested in I. cases I.
  - apply ud_dict; [ndk|]. intros k v I. cases I. apply ud_dict; [ndk|]. intros k v I. cases I; apply ud_other; discriminate.
  - apply ud_dict; [ndk|]. intros k v I. cases I; [|apply ud_other; discriminate]. apply ud_dict; [ndk|]. intros k v I. cases I; apply ud_other; discriminate.
Qed.
Lemma locate_example : locate ex_nested (KStr $"ZA") = [ [KInt 1; KInt 451; KStr $"ZA"]; [KInt 3; KInt 1; KStr $"ZA"] ] /\ unique_data (VDict ex_nested).
Proof. split; [reflexivity|exact ex_nested_unique]. Qed.
Lemma locate_all_refuted : exists d name p, stored_at name p (VDict d) /\ ~ In p (locate d name).
Proof.
  exists [ (KStr $"A", VNone); (KStr $"sub", VDict [(KStr $"A", VNone)]) ], (KStr $"A"), [KStr $"sub"; KStr $"A"]. split.
  - eapply sa_below; [right; left; reflexivity|]. eapply sa_here. reflexivity.
  - cbn. intros [E|[]]. discriminate.
Qed.
Lemma json_example : named_data 3 (VDict ex_nested) /\
  exists d' e, json_keys (VDict ex_nested) = VDict d' /\ map fst d' = [KStr $"1"; KStr $"3"] /\ sanitize 3 d' = Ok e /\ map fst e = [KInt 1; KInt 3].
Proof.
  split.
  - assert (NO : forall n, no_dict (VNum n)) by (intros n; apply no_other; discriminate).
    assert (NS : forall s v (d : dict), (forall k x, In (k, x) d -> match k with KStr t => int_of_str t = None | _ => True end) -> In (KStr s, v) d -> int_of_str s = None) by (intros s v d H I; exact (H _ _ I)).
    assert (NL : forall v, no_dict v -> no_dict (VList [v])) by (intros v H; apply no_list; constructor; [exact H|constructor]).
    apply nd_dict; [ndk|intros s v; apply NS; intros k x I; unfold ex_nested in I; cases I; exact Logic.I|]. intros k v I. unfold ex_nested in I. cases I.
    + apply nd_dict; [ndk|intros s v; apply NS; intros k x I; cases I; exact Logic.I|]. intros k v I. cases I.
      apply nd_dict; [ndk|intros s v; apply NS; intros k x I; cases I; reflexivity|]. intros k v I. cases I; apply nd_other; apply NO.
    + apply nd_dict; [ndk|intros s v; apply NS; intros k x I; cases I; exact Logic.I|]. intros k v I. cases I.
      * apply nd_dict; [ndk|intros s v; apply NS; intros k x I; cases I; reflexivity|]. intros k v I. cases I; apply nd_other; [apply NL|]; apply NO.
      * apply nd_other. apply NL. apply no_other; discriminate.
  - eexists. eexists. split; [reflexivity|]. split; [reflexivity|]. split; [vm_compute; reflexivity|]. reflexivity.
Qed.
Lemma int_keys_refuted : exists d, unique_data (VDict d) /\ sanitize 3 d = Err IndexError.
Proof. exists ex_nested. split; [exact ex_nested_unique|reflexivity]. Qed.
Lemma json_lists_refuted : exists d d' e, json_keys (VDict d) = VDict d' /\ sanitize 3 d' = Ok e /\ ~ same_data (VDict d) (VDict e) /\
  d = [(KStr $"x", VList [VDict [(KInt 1, VNone)]])].
Proof.
  eexists. eexists. eexists. split; [|split; [|split; [|reflexivity]]]; [reflexivity|vm_compute; reflexivity|].
  intros S. inversion S as [? N|? ? A B]; subst. 
  specialize (B (KStr $"x") _ _ eq_refl eq_refl). inversion B.
Qed.

Lemma restored_refuted : exists (l1 : list Z) x, length l1 = 20%nat /\
  let r := enqueue_all l1 (ring_new 20) in
  get_queue r = map Some l1 /\ get_queue (load_state (dump_state r) (enqueue x r)) <> map Some l1.
Proof. exists (repeat 0 20), 1. split; [reflexivity|]. split; [vm_compute; reflexivity|]. vm_compute. discriminate. Qed.
