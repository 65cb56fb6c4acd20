(** Paths as strings (C38) and arrays as lists (C36). *)
From Coq Require Import Ascii String ZArith Bool Lia List.
From Verif Require Import PyBase ModelInterp ModelPath SpecInterp SpecPath ProofPyBase ProofInterpSec ProofInterpFrame.
Import ListNotations.
Open Scope Z_scope.

(** ** C38 *)

Definition lacks (c : ascii) (s : str) : Prop := Forall (fun x => x <> c) s.
Definition plain (s : str) : Prop := s <> [] /\ no_ws s /\ lacks "/"%char s /\ lacks "["%char s /\ lacks ","%char s.

Lemma split_lacks c s : lacks c s -> split_chr c s = [s].
Proof.
  induction 1 as [|x s H F IH]; [reflexivity|]. cbn [split_chr]. destruct (chr_eqb x c) eqn:E; [apply chr_eqb_eq in E; contradiction|].
  rewrite IH. reflexivity.
Qed.
Lemma split_app c s t : lacks c s -> split_chr c (s ++ c :: t) = s :: split_chr c t.
Proof.
  induction 1 as [|x s H F IH]; cbn [app split_chr].
  - destruct (chr_eqb c c) eqn:E; [reflexivity|]. assert (chr_eqb c c = true) by (apply chr_eqb_eq; reflexivity). congruence.
  - destruct (chr_eqb x c) eqn:E; [apply chr_eqb_eq in E; contradiction|]. rewrite IH. reflexivity.
Qed.
Lemma split_join c l : l <> [] -> Forall (lacks c) l -> split_chr c (join [c] l) = l.
Proof.
  intros N F. induction F as [|w l H F IH]; [contradiction|]. destruct l as [|w2 l]; [apply split_lacks; exact H|].
  change (join [c] (w :: w2 :: l)) with (w ++ c :: join [c] (w2 :: l)). rewrite split_app by exact H. rewrite IH by discriminate. reflexivity.
Qed.
Lemma join_last c l w t : join c (l ++ [w]) ++ t = join c (l ++ [w ++ t]).
Proof.
  induction l as [|x l IH]; [reflexivity|].
  assert (E : forall y, join c ((x :: l) ++ [y]) = x ++ c ++ join c (l ++ [y])) by (intros y; cbn; destruct (l ++ [y]) eqn:E; [destruct l; discriminate|reflexivity]).
  rewrite !E. transitivity (x ++ c ++ (join c (l ++ [w]) ++ t)); [rewrite !app_assoc; reflexivity|]. do 2 f_equal. exact IH.
Qed.

Lemma code_neq c x : code c <> code x -> c <> x.
Proof. intros H E. apply H. rewrite E. reflexivity. Qed.
Lemma name_chr_range c : name_chr c -> (48 <= code c <= 57 \/ 65 <= code c <= 90 \/ code c = 95 \/ 97 <= code c <= 122)%nat.
Proof.
  unfold name_chr, is_letter, is_digit. rewrite !orb_true_iff, !andb_true_iff, !Nat.leb_le. intros [[H|H]|[H| ->]]; auto 6.
Qed.
Lemma name_chr_ws c : name_chr c -> is_ws c = false.
Proof.
  intros H. apply name_chr_range in H. destruct (is_ws c) eqn:E; [|reflexivity]. exfalso. unfold is_ws in E.
  repeat rewrite orb_true_iff in E. repeat rewrite andb_true_iff in E. rewrite ?Nat.eqb_eq, ?Nat.leb_le in E. lia.
Qed.
Lemma name_plain s : Forall name_chr s -> s <> [] -> plain s.
Proof.
  intros F N. unfold plain, no_ws, lacks. repeat split; [exact N|..]; (eapply Forall_impl; [|exact F]); cbv beta; intros c H.
  - apply name_chr_ws; exact H.
  - apply code_neq. apply name_chr_range in H. change (code "/"%char) with 47%nat. lia.
  - apply code_neq. apply name_chr_range in H. change (code "["%char) with 91%nat. lia.
  - apply code_neq. apply name_chr_range in H. change (code ","%char) with 44%nat. lia.
Qed.
Lemma digits_plain z : 0 <= z -> plain (str_of_Z z).
Proof.
  intros H. apply name_plain; [|apply str_of_Z_nonnil]. unfold str_of_Z. rewrite (proj2 (Z.ltb_ge z 0)) by lia.
  eapply Forall_impl; [|exact (str_of_nonneg_digits z)]. intros c D. right; left; exact D.
Qed.
Lemma star_plain : plain $"*".
Proof. unfold plain, no_ws, lacks. repeat split; try discriminate; repeat constructor; discriminate. Qed.
Lemma valid_name_plain s : valid_name s -> plain s.
Proof. intros [->|(F & E & _)]; [apply star_plain|]. apply name_plain; [exact F|]. intros ->. inversion E. Qed.
Lemma valid_key_plain k : valid_key k -> plain (str_of_key k).
Proof. destruct k; [apply digits_plain|apply valid_name_plain]. Qed.

Lemma isdigit_true s : s <> [] -> all_digits s -> isdigit s = true.
Proof. intros N D. destruct s; [contradiction|]. unfold isdigit. apply forallb_forall. intros x I. apply (proj1 (Forall_forall _ _) D x I). Qed.
Lemma element_int z : 0 <= z -> element_of (str_of_Z z) = KInt z.
Proof.
  intros H. assert (E : str_of_Z z = str_of_nonneg z) by (unfold str_of_Z; rewrite (proj2 (Z.ltb_ge z 0)) by lia; reflexivity). rewrite E.
  unfold element_of. rewrite isdigit_true; [|apply str_of_nonneg_nonnil|apply str_of_nonneg_digits]. rewrite str_of_nonneg_val by exact H. reflexivity.
Qed.
Lemma element_name s : valid_name s -> element_of s = KStr s.
Proof.
  intros [->|(F & E & D)]; [reflexivity|]. unfold element_of. destruct (isdigit s) eqn:I; [|reflexivity]. destruct s as [|c r]; [discriminate|].
  cbn [isdigit forallb] in I. rewrite (D c r eq_refl) in I. discriminate.
Qed.
Lemma element_valid k : valid_key k -> element_of (str_of_key k) = k.
Proof. destruct k; [apply element_int|apply element_name]. Qed.

Lemma valid_element_iff s : valid_element (KStr s) = true <-> valid_name s.
Proof.
  unfold valid_element, valid_name. rewrite negb_true_iff, andb_false_iff, negb_false_iff, orb_false_iff, negb_false_iff.
  assert (A : isalnum (remove_chr "_"%char s) = true <-> Forall name_chr s /\ Exists (fun c => c <> "_"%char) s).
  { unfold isalnum, remove_chr. split.
    - intros H. assert (FA : forallb is_alnum_chr (filter (fun c => negb (chr_eqb c "_"%char)) s) = true) by (destruct (filter _ s); [discriminate|exact H]).
      rewrite forallb_forall in FA. split.
      + apply Forall_forall. intros c I. destruct (chr_eqb c "_"%char) eqn:E; [right; right; apply chr_eqb_eq; exact E|].
        specialize (FA c). rewrite filter_In in FA. rewrite E in FA. specialize (FA (conj I eq_refl)). unfold is_alnum_chr in FA. apply orb_true_iff in FA. unfold name_chr. tauto.
      + destruct (filter _ s) as [|c r] eqn:E; [discriminate|]. assert (I : In c (c :: r)) by (left; reflexivity). rewrite <- E in I. apply filter_In in I as [I X].
        apply Exists_exists. exists c. split; [exact I|]. intros ->. discriminate.
    - intros [F E]. apply Exists_exists in E as (c & I & NE). rewrite Forall_forall in F.
      assert (IN : In c (filter (fun c => negb (chr_eqb c "_"%char)) s)).
      { apply filter_In. split; [exact I|]. destruct (chr_eqb c "_"%char) eqn:E; [apply chr_eqb_eq in E; contradiction|reflexivity]. }
      destruct (filter _ s) eqn:Q; [destruct IN|]. rewrite <- Q. apply forallb_forall. intros x X. apply filter_In in X as [X1 X2].
      unfold is_alnum_chr. apply orb_true_iff. destruct (F x X1) as [H|[H| ->]]; auto; discriminate. }
  assert (B : (match s with c :: _ => is_digit c | [] => false end = false) <-> (forall c r, s = c :: r -> is_digit c = false)).
  { destruct s as [|c r]; split; try discriminate; auto. - intros H c' r' E. injection E as <- _. exact H. - intros H. exact (H c r eq_refl). }
  rewrite A, B, str_eqb_eq. tauto.
Qed.
Lemma valid_element_key k : valid_key k -> valid_element k = true.
Proof. destruct k; [reflexivity|]. intros H. apply valid_element_iff. exact H. Qed.

Lemma cut_lacks c s : lacks c s -> cut_at c s = None.
Proof. induction 1 as [|x s H F IH]; [reflexivity|]. cbn [cut_at]. destruct (chr_eqb x c) eqn:E; [apply chr_eqb_eq in E; contradiction|]. rewrite IH. reflexivity. Qed.
Lemma cut_app c s t : lacks c s -> cut_at c (s ++ c :: t) = Some (s, t).
Proof.
  induction 1 as [|x s H F IH]; cbn [app cut_at].
  - destruct (chr_eqb c c) eqn:E; [reflexivity|]. assert (chr_eqb c c = true) by (apply chr_eqb_eq; reflexivity). congruence.
  - destruct (chr_eqb x c) eqn:E; [apply chr_eqb_eq in E; contradiction|]. rewrite IH. reflexivity.
Qed.

Lemma expand_plain s : plain s -> expand_array_notation s = Ok [s].
Proof. intros (_ & _ & _ & L & _). unfold expand_array_notation. rewrite cut_lacks by exact L. reflexivity. Qed.
Lemma mapM_expand l : Forall plain l -> mapM expand_array_notation l = Ok (map (fun s => [s]) l).
Proof. induction 1 as [|s l H F IH]; [reflexivity|]. cbn [mapM map]. rewrite expand_plain by exact H. rewrite IH. reflexivity. Qed.
Lemma strip_filter l : Forall (fun s => s <> [] /\ no_ws s) l -> filter (fun x => negb (str_eqb x [])) (map strip l) = l.
Proof.
  induction 1 as [|s l [N W] F IH]; [reflexivity|]. cbn [map filter]. rewrite (strip_no_ws s W). rewrite (proj2 (str_eqb_neq _ _) N). cbn [negb]. rewrite IH. reflexivity.
Qed.
Lemma concat_single {A} (l : list A) : List.concat (map (fun s => [s]) l) = l.
Proof. induction l as [|x l IH]; [reflexivity|]. cbn. f_equal. exact IH. Qed.
Lemma plain_words l : Forall plain l -> Forall (fun s => s <> [] /\ no_ws s) l.
Proof. apply Forall_impl. intros s (A & B & _). auto. Qed.
Lemma valid_plain p : valid_path p -> Forall plain (map str_of_key p).
Proof. unfold valid_path. rewrite !Forall_forall. intros H s I. apply in_map_iff in I as (k & <- & I). apply valid_key_plain. auto. Qed.
Lemma validated p : valid_path p -> validate_path p = Ok tt.
Proof. intros V. unfold validate_path. assert (E : forallb valid_element p = true); [|rewrite E; reflexivity]. apply forallb_forall. intros k I. apply valid_element_key. exact (proj1 (Forall_forall _ _) V k I). Qed.
Lemma map_element p : valid_path p -> map element_of (map str_of_key p) = p.
Proof. unfold valid_path. induction 1 as [|k p H F IH]; [reflexivity|]. cbn [map]. rewrite element_valid by exact H. rewrite IH. reflexivity. Qed.

Theorem standardize_valid p : valid_path p -> standardize (map str_of_key p) = Ok p.
Proof.
  intros V. unfold standardize. rewrite strip_filter by (apply plain_words, valid_plain; exact V). rewrite mapM_expand by (apply valid_plain; exact V).
  cbn [bind]. rewrite concat_single, map_element by exact V. cbv zeta. rewrite validated by exact V. reflexivity.
Qed.
Lemma plain_lacks l : Forall plain l -> Forall (lacks "/"%char) l.
Proof. apply Forall_impl. intros s (_ & _ & H & _). exact H. Qed.

Theorem path_of_str p : valid_path p -> path_of (PStr (path_str p)) = Ok p.
Proof.
  intros V. cbn [path_of]. unfold path_str. destruct p as [|k p]; [reflexivity|].
  rewrite (split_join "/"%char) by (discriminate || apply plain_lacks, valid_plain; exact V). apply standardize_valid. exact V.
Qed.
Theorem path_of_seq p : valid_path p -> path_of (PSeq p) = Ok p.
Proof. apply standardize_valid. Qed.
Theorem path_of_int z : 0 <= z -> path_of (PInt z) = Ok [KInt z].
Proof. intros H. cbn [path_of]. rewrite split_lacks by (apply (digits_plain z H)). apply (standardize_valid [KInt z]). repeat constructor. exact H. Qed.
Theorem path_add_app p q : valid_path p -> valid_path q -> path_add p q = Ok (p ++ q).
Proof. intros P Q. unfold path_add. apply standardize_valid. apply Forall_app. auto. Qed.

Lemma digits_nonneg s : forall acc z, 0 <= acc -> digits_val_acc s acc = Some z -> 0 <= z.
Proof.
  induction s as [|c s IH]; intros acc z A H; cbn [digits_val_acc] in H; [injection H as <-; exact A|]. destruct (is_digit c) eqn:D; [|discriminate].
  apply (IH _ _) in H; [exact H|]. unfold is_digit in D. apply andb_true_iff in D as [D1 D2]. apply Nat.leb_le in D1, D2. unfold digit_val. lia.
Qed.
Theorem standardize_is_valid l p : standardize l = Ok p -> valid_path p.
Proof.
  unfold standardize. destruct (mapM _ _) as [ws|]; [|discriminate]. cbn [bind]. cbv zeta. unfold validate_path. destruct (forallb valid_element _) eqn:F; [|discriminate].
  intros H. injection H as <-. rewrite forallb_forall in F. apply Forall_forall. intros k I. specialize (F k I). apply in_map_iff in I as (s & <- & _).
  unfold element_of in F |- *. destruct (isdigit s).
  - destruct (digits_val_acc s 0) as [z|] eqn:D; [|apply valid_element_iff; exact F]. cbn [valid_key]. apply (digits_nonneg s 0 z); [lia|exact D].
  - apply valid_element_iff. exact F.
Qed.
Theorem path_of_valid spec p : (forall q, spec = PPath q -> valid_path q) -> path_of spec = Ok p -> valid_path p.
Proof.
  intros V H. destruct spec as [z|s|l|q]; cbn [path_of] in H; try exact (standardize_is_valid _ _ H). injection H as <-. exact (V q eq_refl).
Qed.

Lemma no_ws_app a b : no_ws a -> no_ws b -> no_ws (a ++ b).
Proof. intros A B. apply Forall_app. auto. Qed.
Lemma join_forall (P : ascii -> Prop) c l : P c -> Forall (Forall P) l -> Forall P (join [c] l).
Proof.
  intros C F. induction F as [|w l H F IH]; [constructor|]. destruct l as [|w2 l]; [exact H|].
  change (join [c] (w :: w2 :: l)) with (w ++ c :: join [c] (w2 :: l)). apply Forall_app. split; [exact H|]. constructor; assumption.
Qed.

Theorem path_brackets p s l : valid_path p -> valid_name s -> l <> [] -> Forall (fun z => 0 <= z) l ->
  path_of (PStr (path_str (p ++ [KStr s]) ++ $"[" ++ join $"," (map str_of_Z l) ++ $"]")) = Ok (p ++ KStr s :: map KInt l).
Proof.
  intros V VS N NN. cbn [path_of]. unfold path_str. rewrite map_app. cbn [map str_of_key]. rewrite join_last.
  set (t := s ++ $"[" ++ join $"," (map str_of_Z l) ++ $"]").
  pose proof (valid_name_plain s VS) as (S1 & S2 & S3 & S4 & S5).
  assert (PL : Forall plain (map str_of_Z l)).
  { apply Forall_forall. intros x I. apply in_map_iff in I as (z & <- & I). apply digits_plain. exact (proj1 (Forall_forall _ _) NN z I). }
  assert (WT : no_ws t).
  { unfold t. apply no_ws_app; [exact S2|]. apply no_ws_app; [repeat constructor|]. apply no_ws_app; [|repeat constructor].
    apply (join_forall (fun c => is_ws c = false) ","%char); [reflexivity|]. eapply Forall_impl; [|exact PL]. intros x (_ & H & _). exact H. }
  assert (LT : lacks "/"%char t).
  { unfold t, lacks. apply Forall_app. split; [exact S3|]. apply Forall_app. split; [repeat constructor; discriminate|]. apply Forall_app. split; [|repeat constructor; discriminate].
    apply (join_forall (fun c => c <> "/"%char) ","%char); [discriminate|]. eapply Forall_impl; [|exact PL]. intros x (_ & _ & H & _). exact H. }
  assert (NT : t <> []) by (unfold t; destruct s; [contradiction|discriminate]).
  rewrite (split_join "/"%char).
  2: { intros E. destruct (map str_of_key p); discriminate. }
  2: { apply Forall_app. split; [apply plain_lacks, valid_plain; exact V|]. repeat constructor. exact LT. }
  unfold standardize. rewrite strip_filter.
  2: { apply Forall_app. split; [apply plain_words, valid_plain; exact V|]. repeat constructor; assumption. }
  assert (ET : expand_array_notation t = Ok (s :: map str_of_Z l)).
  { unfold expand_array_notation, t. change ($"[" ++ join $"," (map str_of_Z l) ++ $"]") with ("["%char :: (join $"," (map str_of_Z l) ++ $"]")).
    rewrite cut_app by exact S4. replace (s ++ "["%char :: (join $"," (map str_of_Z l) ++ $"]")) with ((s ++ "["%char :: join $"," (map str_of_Z l)) ++ ["]"%char]) by (rewrite <- app_assoc; reflexivity).
    rewrite rev_app_distr. cbn [rev app]. replace (chr_eqb "]"%char "]"%char) with true by reflexivity.
    change $"]" with ["]"%char]. rewrite removelast_last. rewrite (split_join ","%char).
    - do 2 f_equal. revert PL. generalize (map str_of_Z l). clear. intros ws PL. induction PL as [|w ws H F IH]; [reflexivity|]. cbn [map]. rewrite IH. f_equal. apply strip_no_ws. apply H.
    - destruct l; [contradiction|discriminate].
    - eapply Forall_impl; [|exact PL]. intros x (_ & _ & _ & _ & H). exact H. }
  assert (EM : mapM expand_array_notation (map str_of_key p ++ [t]) = Ok (map (fun x => [x]) (map str_of_key p) ++ [s :: map str_of_Z l])).
  { pose proof (valid_plain p V) as VP. revert VP ET. generalize (map str_of_key p). intros w VP ET. induction VP as [|x w H F IH]; cbn [app mapM map].
    - rewrite ET. reflexivity.
    - rewrite expand_plain by exact H. rewrite IH. reflexivity. }
  rewrite EM. cbn [bind]. cbv zeta. rewrite concat_app, concat_single. cbn [List.concat]. rewrite app_nil_r, map_app. cbn [map].
  rewrite map_element by exact V. rewrite element_name by exact VS. rewrite map_map.
  assert (EL : map (fun x => element_of (str_of_Z x)) l = map KInt l).
  { revert NN. clear. intros NN. induction NN as [|z l H F IH]; [reflexivity|]. cbn [map]. rewrite element_int by exact H. rewrite IH. reflexivity. }
  rewrite EL. rewrite validated; [reflexivity|]. apply Forall_app. split; [exact V|]. constructor; [exact VS|].
  apply Forall_forall. intros k I. apply in_map_iff in I as (z & <- & I). exact (proj1 (Forall_forall _ _) NN z I).
Qed.

Lemma add_all_parts l ps : parts l ps -> forall p, valid_path p -> add_all p l = Ok (p ++ List.concat ps).
Proof.
  induction 1 as [|x q l ps H V P IH]; intros p VP; cbn [add_all List.concat]; [rewrite app_nil_r; reflexivity|].
  rewrite H. cbn [bind]. rewrite path_add_app by assumption. cbn [bind]. rewrite IH by (apply Forall_app; auto). rewrite app_assoc. reflexivity.
Qed.

(** ** C36 *)

Lemma convert_dict d : convert (VDict d) = (do d' <- array_dict_to_list d; as_array d').
Proof.
  cbn [convert].
  assert (E : forall d, (fix go (d : dict) : result dict :=
                  match d with
                  | [] => Ok []
                  | (k, x) :: r => do y <- convert x; do r' <- go r; Ok ((k, y) :: r')
                  end) d = array_dict_to_list d).
  { clear. induction d as [|[k x] r IH]; [reflexivity|]. cbn [array_dict_to_list]. rewrite IH. reflexivity. }
  rewrite E. reflexivity.
Qed.

Lemma zmin_le l a : zmin l a <= a /\ (forall z, In z l -> zmin l a <= z) /\ (zmin l a = a \/ In (zmin l a) l).
Proof.
  unfold zmin. revert a. induction l as [|x l IH]; intros a; cbn [fold_left].
  - split; [lia|]. split; [intros z []|auto].
  - destruct (IH (Z.min a x)) as (A & B & C). split; [lia|]. split.
    + intros z [<-|I]; [lia|]. apply B. exact I.
    + destruct C as [C|C]; [|right; right; exact C]. rewrite C. destruct (Z.min_spec a x) as [[_ ->]|[_ ->]]; [auto|right; left; reflexivity].
Qed.
Lemma zmax_ge l a : a <= zmax l a /\ (forall z, In z l -> z <= zmax l a) /\ (zmax l a = a \/ In (zmax l a) l).
Proof.
  unfold zmax. revert a. induction l as [|x l IH]; intros a; cbn [fold_left].
  - split; [lia|]. split; [intros z []|auto].
  - destruct (IH (Z.max a x)) as (A & B & C). split; [lia|]. split.
    + intros z [<-|I]; [lia|]. apply B. exact I.
    + destruct C as [C|C]; [|right; right; exact C]. rewrite C. destruct (Z.max_spec a x) as [[_ ->]|[_ ->]]; [right; left; reflexivity|auto].
Qed.
Lemma int_keys_in d z : In z (int_keys d) <-> exists v, In (KInt z, v) d.
Proof.
  unfold int_keys. rewrite in_flat_map. split.
  - intros ([k v] & I & H). cbn [fst] in H. destruct k; [|destruct H]. destruct H as [<-|[]]. eauto.
  - intros [v I]. exists (KInt z, v). split; [exact I|]. left. reflexivity.
Qed.

Lemma zrange_length a b : a <= b + 1 -> Z.of_nat (length (zrange a b)) = b - a + 1.
Proof. intros H. unfold zrange. rewrite map_length, seq_length. lia. Qed.
Lemma zrange_nth a b i z : nth_error (zrange a b) i = Some z -> z = a + Z.of_nat i.
Proof.
  unfold zrange. generalize (Z.to_nat (b + 1 - a)) as n. intros n H.
  rewrite nth_error_map in H. destruct (nth_error (seq 0 n) i) as [j|] eqn:E; [|discriminate]. injection H as <-.
  assert (L : (i < n)%nat). { assert (X : nth_error (seq 0 n) i <> None) by congruence. apply nth_error_Some in X. rewrite seq_length in X. exact X. }
  apply (nth_error_nth _ _ 0%nat) in E. rewrite seq_nth in E by exact L. subst j. reflexivity.
Qed.

Lemma entries_keys d d' : entries_as_list d d' -> map fst d' = map fst d.
Proof. induction 1; cbn; [reflexivity|]. f_equal. assumption. Qed.
Lemma entries_dget d d' k : entries_as_list d d' ->
  element_as_list (dget k d) (match dget k d' with Some v => v | None => VNone end).
Proof.
  induction 1 as [|k' v w d d' H E IH]; cbn [dget]; [constructor|]. destruct (key_eqb k k'); [constructor; exact H|exact IH].
Qed.
Lemma keys_in (d d' : dict) k : map fst d' = map fst d -> (exists v : val, In (k, v) d') <-> (exists v : val, In (k, v) d).
Proof.
  intros E. assert (G : forall x : dict, (exists v : val, In (k, v) x) <-> In k (map fst x)).
  { intros x. rewrite in_map_iff. split; [intros [v I]; exists (k, v); split; [reflexivity|exact I]|intros ([k' v] & E' & I); cbn [fst] in E'; subst k'; exists v; exact I]. }
  rewrite !G, E. tauto.
Qed.

Lemma as_array_spec d d' w : entries_as_list d d' -> as_array d' = Ok w -> as_list (VDict d) w.
Proof.
  intros E H. pose proof (entries_keys _ _ E) as K. unfold as_array in H. destruct (forallb _ d') eqn:F.
  - destruct (int_keys d') as [|z r] eqn:I; [discriminate|]. cbv zeta in H. injection H as <-.
    destruct (zmin_le r z) as (A1 & A2 & A3). destruct (zmax_ge r z) as (B1 & B2 & B3). set (a := zmin r z) in *. set (b := zmax r z) in *.
    assert (IN : forall x, (exists v, In (KInt x, v) d) <-> In x (z :: r)) by (intros x; rewrite <- I, int_keys_in; symmetry; apply keys_in; exact K).
    apply al_array with (a := a) (b := b).
    + split; [|split].
      * intros k v KV. destruct k as [x|s].
        -- exists x. split; [reflexivity|]. destruct (proj1 (IN x) (ex_intro _ v KV)) as [->|J]; [lia|]. specialize (A2 _ J). specialize (B2 _ J). lia.
        -- exfalso. rewrite forallb_forall in F. destruct (proj2 (keys_in d d' (KStr s) K) (ex_intro _ v KV)) as [v' J]. specialize (F _ J). discriminate F.
      * apply IN. destruct A3 as [->|J]; [left; reflexivity|right; exact J].
      * apply IN. destruct B3 as [->|J]; [left; reflexivity|right; exact J].
    + rewrite map_length. apply zrange_length. lia.
    + intros i w N. rewrite nth_error_map in N. destruct (nth_error (zrange a b) i) as [x|] eqn:Q; [|discriminate]. injection N as <-.
      apply zrange_nth in Q. subst x. apply entries_dget. exact E.
  - injection H as <-. apply al_dict; [exact E|]. assert (X : exists kv, In kv d' /\ is_int_key (fst kv) = false).
    { clear -F. induction d' as [|kv d' IH]; [discriminate|]. cbn [forallb] in F. apply andb_false_iff in F as [F|F]; [exists kv; split; [left; reflexivity|exact F]|].
      destruct (IH F) as (x & I & N). exists x. split; [right; exact I|exact N]. }
    destruct X as ([k v] & I & N). destruct k as [x|s]; [discriminate|]. destruct (proj1 (keys_in d d' (KStr s) K) (ex_intro _ v I)) as [v' J]. eauto.
Qed.

Fixpoint convert_spec (v w : val) {struct v} : convert v = Ok w -> as_list v w.
Proof.
  destruct v as [n|s|l|d|e| | |]; intros H; try (injection H as <-; apply al_other; discriminate).
  rewrite convert_dict in H. destruct (array_dict_to_list d) as [d'|] eqn:A; [|discriminate]. cbn [bind] in H.
  refine (as_array_spec d d' w _ H). clear H. revert d' A. induction d as [|[k x] d IH]; intros d' A; cbn [array_dict_to_list] in A.
  - injection A as <-. constructor.
  - destruct (convert x) as [y|] eqn:C; [|discriminate]. cbn [bind] in A. destruct (array_dict_to_list d) as [r|]; [|discriminate]. cbn [bind] in A. injection A as <-.
    constructor; [exact (convert_spec x y C)|apply IH; reflexivity].
Defined.

Theorem array_dict_to_list_spec d d' : array_dict_to_list d = Ok d' -> entries_as_list d d'.
Proof.
  revert d'. induction d as [|[k x] d IH]; intros d' A; cbn [array_dict_to_list] in A.
  - injection A as <-. constructor.
  - destruct (convert x) as [y|] eqn:C; [|discriminate]. cbn [bind] in A. destruct (array_dict_to_list d) as [r|]; [|discriminate]. cbn [bind] in A. injection A as <-.
    constructor; [exact (convert_spec x y C)|apply IH; reflexivity].
Qed.

Lemma as_array_total d : d <> [] -> exists w, as_array d = Ok w.
Proof.
  intros N. unfold as_array. destruct (forallb _ d) eqn:F; [|eauto]. destruct d as [|[k v] d]; [contradiction|]. cbn [forallb fst] in F.
  destruct k; [|discriminate]. cbn [int_keys flat_map fst app]. eauto.
Qed.
Lemma to_list_nil d : array_dict_to_list d = Ok [] -> d = [].
Proof. destruct d as [|[k v] d]; [reflexivity|]. cbn [array_dict_to_list]. destruct (convert v); [|discriminate]. cbn [bind]. destruct (array_dict_to_list d); discriminate. Qed.

Fixpoint convert_total (v : val) {struct v} : no_empty v -> exists w, convert v = Ok w.
Proof.
  destruct v as [n|s|l|d|e| | |]; intros H; try (eexists; reflexivity).
  assert (D : d <> [] /\ forall k x, In (k, x) d -> no_empty x).
  { inversion H as [v N|d0 N A]; subst; [destruct (N d eq_refl)|auto]. }
  clear H. destruct D as [N A]. rewrite convert_dict.
  assert (T : exists d', array_dict_to_list d = Ok d').
  { clear N. induction d as [|[k x] d IH]; [eexists; reflexivity|]. cbn [array_dict_to_list].
    destruct (convert_total x (A k x (or_introl eq_refl))) as [y ->]. cbn [bind]. destruct IH as [r ->]; [intros k' x' I; exact (A k' x' (or_intror I))|]. cbn [bind]. eauto. }
  destruct T as [d' T]. rewrite T. cbn [bind]. apply as_array_total. intros ->. apply N. apply to_list_nil. exact T.
Defined.
Theorem array_dict_to_list_total d : (forall k v, In (k, v) d -> no_empty v) -> exists d', array_dict_to_list d = Ok d'.
Proof.
  induction d as [|[k x] d IH]; intros A; [eexists; reflexivity|]. cbn [array_dict_to_list]. destruct (convert_total x (A k x (or_introl eq_refl))) as [y ->]. cbn [bind].
  destruct IH as [r ->]; [intros k' x' I; exact (A k' x' (or_intror I))|]. cbn [bind]. eauto.
Qed.

(** *** Positions in lists *)

Lemma sget_sset i s l j : sget j (sset i s l) = if j =? i then Some s else sget j l.
Proof.
  induction l as [|[k t] l IH]; cbn [sset sget]; [destruct (j =? i); reflexivity|]. destruct (i =? k) eqn:E; cbn [sget].
  - apply Z.eqb_eq in E. subst k. destruct (j =? i); reflexivity.
  - rewrite IH. destruct (j =? k) eqn:E2; [|reflexivity]. apply Z.eqb_eq in E2. subst j. rewrite Z.eqb_sym, E. reflexivity.
Qed.

Definition tails (x : Z) (h : list (list Z)) : list (list Z) :=
  flat_map (fun a => match a with i :: r => if x =? i then [r] else [] | [] => [] end) h.
Fixpoint first_head (h : list (list Z)) : option Z :=
  match h with [] => None | [] :: h => first_head h | (i :: _) :: _ => Some i end.

Lemma tails_app x h g : tails x (h ++ g) = tails x h ++ tails x g.
Proof. apply flat_map_app. Qed.
Lemma first_head_app h g : first_head (h ++ g) = match first_head h with Some i => Some i | None => first_head g end.
Proof. induction h as [|[|i r] h IH]; cbn [app first_head]; auto. Qed.
Lemma after_app h a : after_accesses (h ++ [a]) = snd (shift_indices a (after_accesses h)).
Proof. unfold after_accesses. rewrite fold_left_app. reflexivity. Qed.

Lemma after_info h : exists sub, after_accesses h = SInfo (first_head h) sub /\
  forall x, sget x sub = match tails x h with [] => None | _ => Some (after_accesses (tails x h)) end.
Proof.
  induction h as [|a h IH] using rev_ind; [exists []; split; reflexivity|]. destruct IH as (sub & E & S).
  rewrite after_app, E, first_head_app. destruct a as [|i r]; cbn [shift_indices first_head snd].
  - exists sub. split; [destruct (first_head h); reflexivity|]. intros x. rewrite tails_app. cbn [tails flat_map app]. rewrite app_nil_r. apply S.
  - destruct (shift_indices r _) as [l s'] eqn:R. cbn [snd]. eexists. split; [destruct (first_head h); reflexivity|].
    intros x. rewrite sget_sset, tails_app. cbn [tails flat_map]. destruct (x =? i) eqn:X.
    + apply Z.eqb_eq in X. subst x. cbn [app]. fold (tails i h). rewrite after_app.
      assert (Q : match sget i sub with Some s => s | None => s_empty end = after_accesses (tails i h)) by (rewrite S; destruct (tails i h); reflexivity).
      rewrite Q in R. rewrite R. cbn [snd]. destruct (tails i h); reflexivity.
    + cbn [app]. rewrite app_nil_r. apply S.
Qed.

Lemma first_index_head h i : first_head h = Some i -> first_index h [] i.
Proof.
  induction h as [|[|j r] h IH]; cbn [first_head]; intros H; [discriminate| |].
  - apply fi_later; [intros j r; discriminate|auto].
  - injection H as ->. apply (fi_here []).
Qed.
Lemma first_index_tails x h pre i : first_index (tails x h) pre i -> first_index h (x :: pre) i.
Proof.
  induction h as [|a h IH]; cbn [tails flat_map]; intros H; [inversion H|]. destruct a as [|j r]; [apply fi_later; [discriminate|auto]|].
  destruct (x =? j) eqn:E.
  - apply Z.eqb_eq in E. subst j. cbn [app] in H. inversion H as [p i0 r0 h0|a0 p i0 h0 N F]; subst.
    + apply (fi_here (x :: pre)).
    + apply fi_later; [|apply IH; exact F]. intros k s Q. injection Q as ->. exact (N k s eq_refl).
  - apply fi_later; [|apply IH; exact H]. intros k s Q. injection Q as -> _. rewrite Z.eqb_refl in E. discriminate.
Qed.

Theorem shift_spec idcs : forall h k i, nth_error idcs k = Some i ->
  exists s, first_index (h ++ [idcs]) (firstn k idcs) s /\ nth_error (fst (shift_indices idcs (after_accesses h))) k = Some (i - s).
Proof.
  induction idcs as [|x r IH]; intros h k i N; [destruct k; discriminate|].
  destruct (after_info h) as (sub & E & S). rewrite E. cbn [shift_indices].
  assert (Q : match sget x sub with Some s => s | None => s_empty end = after_accesses (tails x h)) by (rewrite S; destruct (tails x h); reflexivity).
  rewrite Q. destruct (shift_indices r (after_accesses (tails x h))) as [l s'] eqn:R. cbn [fst]. destruct k as [|k].
  - cbn [nth_error] in N |- *. injection N as ->. cbn [firstn]. eexists. split; [|reflexivity]. apply first_index_head. rewrite first_head_app. destruct (first_head h); reflexivity.
  - cbn [nth_error firstn] in N |- *. destruct (IH (tails x h) k i N) as (s & F & G). rewrite R in G. exists s. split; [|exact G].
    apply first_index_tails. rewrite tails_app. cbn [tails flat_map]. rewrite Z.eqb_refl. exact F.
Qed.
Lemma shift_length idcs : forall info, length (fst (shift_indices idcs info)) = length idcs.
Proof.
  induction idcs as [|x r IH]; intros [st sub]; [reflexivity|]. cbn [shift_indices]. destruct (shift_indices r _) as [l s'] eqn:R. cbn [fst length].
  f_equal. rewrite <- (IH (match sget x sub with Some s => s | None => s_empty end)). rewrite R. reflexivity.
Qed.
