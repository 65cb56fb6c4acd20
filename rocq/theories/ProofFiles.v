(** Proofs about operations on files (C47, C48). *)
From Coq Require Import Ascii String ZArith Bool Lia List.
From Verif Require Import PyBase ProofPyBase ModelFiles SpecFiles.
Import ListNotations.

(** ** Lists *)

Lemma length_set_nth i x l : length (set_nth i x l) = length l.
Proof. revert i. induction l as [|y l IH]; intros [|i]; cbn; auto. Qed.
Lemma nth_set_same i x l : (i < length l)%nat -> nth_error (set_nth i x l) i = Some x.
Proof. revert i. induction l as [|y l IH]; intros [|i] H; cbn in *; try lia; auto. apply IH. lia. Qed.
Lemma nth_set_other i j x l : i <> j -> nth_error (set_nth i x l) j = nth_error l j.
Proof. revert i j. induction l as [|y l IH]; intros [|i] [|j] H; cbn; auto; congruence. Qed.

Lemma nget_filter n m l : nget m (filter (fun mi => negb (str_eqb n (fst mi))) l) = if str_eqb n m then None else nget m l.
Proof.
  induction l as [|[k i] l IH]; cbn [filter nget fst]; [destruct (str_eqb n m); reflexivity|].
  destruct (str_eqb n k) eqn:E; cbn [negb nget].
  - rewrite IH. apply str_eqb_eq in E. subst k. destruct (str_eqb n m) eqn:F; [reflexivity|].
    destruct (str_eqb m n) eqn:G; [|reflexivity]. apply str_eqb_eq in G. subst. rewrite str_eqb_refl in F. discriminate.
  - cbn [nget]. rewrite IH. destruct (str_eqb m k) eqn:G; [|reflexivity]. apply str_eqb_eq in G. subst k. rewrite E. reflexivity.
Qed.

(** ** Programs *)

Lemma points_andthen {A B} (p : prog A) (k : A -> prog B) : forall d s, In s (points (andthen p k) d) ->
  In s (points p d) \/ exists x d', execute p d = (inl x, d') /\ In s (points (k x) d').
Proof.
  induction p as [x|f|a kp IH]; intros d s; cbn [andthen execute].
  - intros H. right. eauto.
  - cbn [points]. auto.
  - cbn [points]. destruct (do_action a d) as [r d'] eqn:E. intros [<-|H]; [left; left; reflexivity|].
    destruct (IH r d' s H) as [H'|H']; [left; right; exact H'|right; exact H'].
Qed.
Lemma run_andthen {A B} (p : prog A) (k : A -> prog B) : forall d,
  execute (andthen p k) d = match execute p d with (inl x, d') => execute (k x) d' | (inr f, d') => (inr f, d') end.
Proof.
  induction p as [x|f|a kp IH]; intros d; cbn [andthen execute]; [destruct (execute (k x) d); reflexivity|reflexivity|].
  destruct (do_action a d) as [r d']. apply IH.
Qed.
Lemma run_in_points {A} (p : prog A) : forall d, In (snd (execute p d)) (points p d).
Proof.
  induction p as [x|f|a kp IH]; intros d; cbn [execute points snd]; [left; reflexivity|left; reflexivity|].
  destruct (do_action a d) as [r d']. right. apply IH.
Qed.

(** ** Single files *)

(** the file [i] may have changed, nothing else *)
Definition only_file (i : nat) (d s : disk) : Prop :=
  names s = names d /\ length (files s) = length (files d) /\ forall j, j <> i -> nth_error (files s) j = nth_error (files d) j.
Lemma only_refl i d : only_file i d d.
Proof. repeat split. Qed.
Lemma only_trans i d s t : only_file i d s -> only_file i s t -> only_file i d t.
Proof.
  intros [A [B C]] [A' [B' C']]. split; [congruence|]. split; [congruence|]. intros j N. rewrite C', C by exact N. reflexivity.
Qed.
Lemma only_content i d s m c : only_file i d s -> node d m <> Some i -> content d m = Some c -> content s m = Some c.
Proof.
  unfold content, node. intros [A [B C]] N. rewrite A. destruct (nget m (names d)) as [j|]; [|discriminate]. rewrite C; congruence.
Qed.
Lemma only_sound i d s : only_file i d s -> sound d -> sound s.
Proof. unfold sound, node. intros [A [B C]] S n j. rewrite A, B. apply S. Qed.
Lemma write_only i x d : only_file i d (snd (do_action (AWrite i x) d)).
Proof.
  cbn [do_action snd]. split; [reflexivity|]. cbn [files]. destruct (nth_error (files d) i); split; auto.
  - apply length_set_nth.
  - intros j N. apply nth_set_other. congruence.
Qed.
Lemma pieces_only i l : forall d s, In s (points (write_pieces i l) d) -> only_file i d s.
Proof.
  induction l as [|x l IH]; intros d s; cbn [write_pieces points].
  - intros [<-|[]]. apply only_refl.
  - intros [<-|H]; [apply only_refl|]. change (do_action (AWrite i x) d) with (RDone, snd (do_action (AWrite i x) d)) in H. cbv iota beta in H.
    eapply only_trans; [apply write_only|]. apply IH. exact H.
Qed.
Lemma pieces_run i l : forall d t, nth_error (files d) i = Some t ->
  exists d', execute (write_pieces i l) d = (inl tt, d') /\ only_file i d d' /\ nth_error (files d') i = Some (t ++ List.concat l).
Proof.
  induction l as [|x l IH]; intros d t E; cbn [write_pieces execute].
  - exists d. rewrite app_nil_r. repeat split; auto.
  - change (do_action (AWrite i x) d) with (RDone, snd (do_action (AWrite i x) d)). cbv iota beta.
    assert (L : (i < length (files d))%nat) by (apply nth_error_Some; congruence).
    destruct (IH (snd (do_action (AWrite i x) d)) (t ++ x)) as [d' [R [O C]]].
    + cbn [do_action snd files]. rewrite E. apply nth_set_same. exact L.
    + exists d'. split; [exact R|]. split; [exact (only_trans _ _ _ _ (write_only i x d) O)|]. rewrite C, <- app_assoc. reflexivity.
Qed.
(** any point of the writing: the first pieces *)
Lemma pieces_points i l : forall d t s, nth_error (files d) i = Some t -> In s (points (write_pieces i l) d) ->
  exists k, nth_error (files s) i = Some (t ++ List.concat (firstn k l)).
Proof.
  induction l as [|x l IH]; intros d t s E; cbn [write_pieces points].
  - intros [<-|[]]. exists 0%nat. cbn. rewrite app_nil_r. exact E.
  - intros [<-|H]; [exists 0%nat; cbn; rewrite app_nil_r; exact E|].
    change (do_action (AWrite i x) d) with (RDone, snd (do_action (AWrite i x) d)) in H. cbv iota beta in H.
    assert (L : (i < length (files d))%nat) by (apply nth_error_Some; congruence).
    apply (IH _ (t ++ x)) in H as [k H]; [exists (S k); cbn [firstn List.concat]; rewrite H, <- app_assoc; reflexivity|].
    cbn [do_action snd files]. rewrite E. apply nth_set_same. exact L.
Qed.

(** a new file *)
Definition created (n : str) (d : disk) : disk :=
  {| names := (n, length (files d)) :: names d; files := files d ++ [[]] |}.
Lemma open_new n d : node d n = None -> do_action (AOpen n) d = (RFile (length (files d)), created n d).
Proof. intros E. cbn [do_action]. rewrite E. reflexivity. Qed.
Lemma created_content n d m c : node d n = None -> content d m = Some c -> content (created n d) m = Some c.
Proof.
  unfold content, node, created. cbn [names files nget]. intros E. destruct (str_eqb m n) eqn:F.
  - apply str_eqb_eq in F. subst m. rewrite E. discriminate.
  - destruct (nget m (names d)) as [i|]; [|discriminate]. intros H. rewrite nth_error_app1; [exact H|]. apply nth_error_Some. congruence.
Qed.
Lemma created_own n d : node (created n d) n = Some (length (files d)).
Proof. unfold node, created. cbn [names nget]. rewrite str_eqb_refl. reflexivity. Qed.
Lemma created_node n d m : m <> n -> node (created n d) m = node d m.
Proof. intros N. unfold node, created. cbn [names nget]. destruct (str_eqb m n) eqn:F; [apply str_eqb_eq in F; contradiction|reflexivity]. Qed.
Lemma created_sound n d : sound d -> sound (created n d).
Proof.
  intros S m i. unfold created at 2. cbn [files]. rewrite app_length. cbn [length]. unfold node, created. cbn [names nget].
  destruct (str_eqb m n); [intros [= <-]; lia|]. intros H. apply S in H. lia.
Qed.
Lemma created_file n d : nth_error (files (created n d)) (length (files d)) = Some [].
Proof. unfold created. cbn [files]. rewrite nth_error_app2 by lia. rewrite Nat.sub_diag. reflexivity. Qed.

Lemma new_file_points n l d : sound d -> node d n = None -> forall s, In s (points (write_pieces (length (files d)) l) (created n d)) ->
  sound s /\ forall m c, content d m = Some c -> content s m = Some c.
Proof.
  intros S E s H. pose proof (pieces_only _ _ _ _ H) as O. split; [exact (only_sound _ _ _ O (created_sound _ _ S))|].
  intros m c C. apply (only_content _ _ _ _ _ O); [|exact (created_content _ _ _ _ E C)].
  intros X. destruct (str_eqb m n) eqn:F.
  - apply str_eqb_eq in F. subst m. unfold content in C. rewrite E in C. discriminate.
  - rewrite created_node in X by (apply str_eqb_neq; exact F). apply S in X. lia.
Qed.
Lemma new_file_run n l d : exists d', execute (write_pieces (length (files d)) l) (created n d) = (inl tt, d') /\ content d' n = Some (List.concat l).
Proof.
  destruct (pieces_run (length (files d)) l (created n d) [] (created_file n d)) as [d' [R [[O _] C]]]. exists d'. split; [exact R|].
  unfold content, node. rewrite O. fold (node (created n d) n). rewrite created_own. exact C.
Qed.

(** ** writefile *)

Lemma writefile_points cpp n out d : sound d -> forall s, In s (points (writefile cpp n out false) d) ->
  sound s /\ forall m c, content d m = Some c -> content s m = Some c.
Proof.
  intros S s H. destruct cpp; cbn [writefile] in H.
  - unfold writefile_cpp in H. cbn [points do_action] in H. destruct H as [<-|H]; [auto|]. destruct (node d n) as [i|] eqn:E.
    + cbn [points] in H. destruct H as [<-|[]]. auto.
    + cbn [points] in H. destruct H as [<-|H]; [auto|]. rewrite open_new in H by exact E. apply points_andthen in H as [H|[[] [d' [R H]]]].
      * eapply new_file_points; eauto.
      * assert (I : In d' (points (write_pieces (length (files d)) (fst out)) (created n d))) by (pose proof (run_in_points (write_pieces (length (files d)) (fst out)) (created n d)) as P; rewrite R in P; exact P).
        destruct (snd out); cbn [points] in H; destruct H as [<-|[]]; eapply new_file_points; eauto.
  - unfold writefile_py in H. cbn [points do_action] in H. destruct H as [<-|H]; [auto|]. destruct (node d n) as [i|] eqn:E.
    + cbn [points] in H. destruct H as [<-|[]]. auto.
    + destruct (snd out); cbn [points] in H; [destruct H as [<-|[]]; auto|]. destruct H as [<-|H]; [auto|].
      rewrite open_new in H by exact E. eapply new_file_points; eauto.
Qed.
Lemma writefile_exists cpp n out d : node d n <> None -> execute (writefile cpp n out false) d = (inr Exists, d) /\ points (writefile cpp n out false) d = [d; d].
Proof. destruct (node d n) as [i|] eqn:E; [|congruence]. intros _. destruct cpp; cbn; rewrite E; split; reflexivity. Qed.
Lemma writefile_done cpp n l d : node d n = None -> exists d', execute (writefile cpp n (l, None) false) d = (inl tt, d') /\ content d' n = Some (List.concat l).
Proof.
  intros E. destruct (new_file_run n l d) as [d' [R C]]. exists d'. split; [|exact C].
  destruct cpp; cbn [writefile]; unfold writefile_cpp, writefile_py; cbn [execute do_action fst snd]; rewrite E; cbn [execute]; rewrite open_new by exact E.
  - rewrite run_andthen, R. reflexivity.
  - exact R.
Qed.
Lemma writefile_py_failure n out ow d f d' : sound d -> execute (writefile_py n out ow) d = (inr f, d') -> d' = d.
Proof.
  intros S. unfold writefile_py. cbn [execute do_action]. destruct (node d n) as [i|] eqn:E; destruct ow; cbn [execute]; try congruence.
  - destruct (snd out); cbn [execute]; [congruence|]. cbn [do_action]. rewrite E.
    destruct (pieces_run i (fst out) {| names := names d; files := set_nth i [] (files d) |} []) as [d1 [R _]]; [cbn [files]; apply nth_set_same; exact (S _ _ E)|]. rewrite R. discriminate.
  - destruct (snd out); cbn [execute]; [congruence|]. rewrite open_new by exact E. destruct (new_file_run n (fst out) d) as [d1 [R _]]. rewrite R. discriminate.
  - destruct (snd out); cbn [execute]; [congruence|]. rewrite open_new by exact E. destruct (new_file_run n (fst out) d) as [d1 [R _]]. rewrite R. discriminate.
Qed.

(** ** Backups *)

Lemma app_bak_neq (n : str) : n ++ $".bak" <> n.
Proof. intros H. apply (f_equal (@length ascii)) in H. rewrite app_length in H. cbn in H. lia. Qed.
Lemma backup_longer n m : backup_of n m -> (length n < length m)%nat.
Proof. induction 1; rewrite app_length; cbn; lia. Qed.
Lemma backup_neq n m : backup_of n m -> m <> n.
Proof. intros H ->. apply backup_longer in H. lia. Qed.

Lemma link_content src dst d m c i : node d src = Some i -> node d dst = None -> content d m = Some c ->
  content {| names := (dst, i) :: names d; files := files d |} m = Some c.
Proof.
  unfold content, node. cbn [names files nget]. intros A B. destruct (str_eqb m dst) eqn:F; [|auto].
  apply str_eqb_eq in F. subst m. rewrite B. discriminate.
Qed.
Lemma link_new dst d i c : nth_error (files d) i = Some c -> content {| names := (dst, i) :: names d; files := files d |} dst = Some c.
Proof. intros E. unfold content, node. cbn [names files nget]. rewrite str_eqb_refl. exact E. Qed.
Lemma link_sound dst d i : sound d -> (i < length (files d))%nat -> sound {| names := (dst, i) :: names d; files := files d |}.
Proof. intros S L m j. unfold node. cbn [names files nget]. destruct (str_eqb m dst); [intros [= <-]; exact L|apply S]. Qed.
Definition removed (n : str) (d : disk) : disk := {| names := filter (fun mi => negb (str_eqb n (fst mi))) (names d); files := files d |}.
Lemma removed_node n d m : node (removed n d) m = if str_eqb n m then None else node d m.
Proof. unfold node, removed. cbn [names]. apply nget_filter. Qed.
Lemma removed_content n d m : m <> n -> content (removed n d) m = content d m.
Proof.
  intros N. unfold content. rewrite removed_node. destruct (str_eqb n m) eqn:F; [apply str_eqb_eq in F; congruence|reflexivity].
Qed.
Lemma removed_sound n d : sound d -> sound (removed n d).
Proof. intros S m j. rewrite removed_node. destruct (str_eqb n m); [discriminate|]. apply S. Qed.

(** what a state reached while the backup of [file] is made satisfies *)
Definition backing (file : str) (d s : disk) : Prop :=
  sound s /\ others_untouched file d s /\
  (content s file = content d file \/
   exists m, backup_of file m /\ node d m = None /\ content s m = content d file).

Lemma backup_points tries file : forall b d, (b = file \/ backup_of file b) -> sound d -> node d file <> None ->
  (forall s, In s (points (backup_from tries file b) d) -> backing file d s) /\
  (forall s, execute (backup_from tries file b) d = (inl tt, s) -> node s file = None /\ sound s /\ others_untouched file d s /\
     exists m, backup_of file m /\ node d m = None /\ content s m = content d file) /\
  (forall f s, execute (backup_from tries file b) d = (inr f, s) -> s = d).
Proof.
  induction tries as [|tries IH]; intros b d B S E.
  - cbn [backup_from points execute]. split; [|split; [discriminate|congruence]]. intros s [<-|[]]. repeat split; auto. intros m c _ H. exact H.
  - assert (SELF : backing file d d) by (repeat split; auto; intros m c _ H; exact H).
    assert (B' : backup_of file (b ++ $".bak")) by (destruct B as [->|B]; [apply bk_one|apply bk_more; exact B]).
    cbn [backup_from points execute do_action]. destruct (node d file) as [i|] eqn:F; [|congruence].
    destruct (node d (b ++ $".bak")) as [j|] eqn:G.
    + assert (E' : node d file <> None) by congruence.
      destruct (IH (b ++ $".bak") d (or_intror B') S E') as [P [Q R]].
      split; [intros s [<-|H]; [exact SELF|apply P; exact H]|]. split; [exact Q|exact R].
    + set (d1 := {| names := (b ++ $".bak", i) :: names d; files := files d |}).
      assert (L : (i < length (files d))%nat) by exact (S _ _ F).
      assert (N1 : node d1 file = Some i).
      { unfold node, d1. cbn [names nget]. destruct (str_eqb file (b ++ $".bak")) eqn:X; [reflexivity|exact F]. }
      assert (S1 : sound d1) by (apply link_sound; assumption).
      assert (C1 : content d1 (b ++ $".bak") = content d file).
      { unfold content at 2. rewrite F. destruct (nth_error (files d) i) as [c|] eqn:X; [|apply nth_error_None in X; lia]. apply link_new. exact X. }
      assert (OT : forall m c, content d m = Some c -> content d1 m = Some c) by (intros m c; eapply link_content; eassumption).
      assert (B1 : backing file d d1).
      { split; [exact S1|]. split; [intros m c _ H; auto|]. right. exists (b ++ $".bak"). auto. }
      match goal with |- context [points _ ?x] => change x with d1 end.
      match goal with |- context [execute _ ?x] => change x with d1 end.
      cbn [points execute do_action]. rewrite N1. cbn [points execute]. fold (removed file d1).
      assert (NB : b ++ $".bak" <> file) by (apply backup_neq; exact B').
      assert (FIN : node (removed file d1) file = None /\ sound (removed file d1) /\ others_untouched file d (removed file d1) /\
                exists m, backup_of file m /\ node d m = None /\ content (removed file d1) m = content d file).
      { split; [rewrite removed_node, str_eqb_refl; reflexivity|]. split; [apply removed_sound; exact S1|]. split.
        - intros m c N H. rewrite removed_content by exact N. auto.
        - exists (b ++ $".bak"). rewrite removed_content by exact NB. auto. }
      split; [|split; [|discriminate]].
      * intros s [<-|[<-|[<-|[]]]]; [exact SELF|exact B1|]. destruct FIN as [_ [X [Y Z]]]. repeat split; auto.
      * intros s [= <-]. exact FIN.
Qed.

Lemma create_backup_points file d : sound d -> node d file <> None ->
  (forall s, In s (points (create_backup_file file) d) -> backing file d s) /\
  (forall s, execute (create_backup_file file) d = (inl tt, s) -> node s file = None /\ sound s /\ others_untouched file d s /\
     exists m, backup_of file m /\ node d m = None /\ content s m = content d file).
Proof.
  intros S E. destruct (backup_points 10 file file d (or_introl eq_refl) S E) as [P [Q _]]. split; assumption.
Qed.
#[local] Opaque create_backup_file.

(** ** Commands *)

Lemma lost_refl d : nothing_lost d d.
Proof. intros n c H. exists n. auto. Qed.
Lemma backup_trans a b c : backup_of a b -> backup_of b c -> backup_of a c.
Proof. intros A B. induction B; [apply bk_more; exact A|apply bk_more; exact IHB]. Qed.
Lemma lost_trans d e f : nothing_lost d e -> nothing_lost e f -> nothing_lost d f.
Proof.
  intros A B n c H. destruct (A n c H) as [m [M E]]. destruct (B m c E) as [k [K F]]. exists k. split; [|exact F].
  destruct M as [->|M]; destruct K as [->|K]; auto. right. eapply backup_trans; eauto.
Qed.
Lemma backing_lost file d s : backing file d s -> nothing_lost d s.
Proof.
  intros [_ [O B]] n c H. destruct (str_eqb n file) eqn:E.
  - apply str_eqb_eq in E. subst n. destruct B as [B|[m [M [_ B]]]]; [exists file; split; [auto|congruence]|exists m; split; [auto|congruence]].
  - exists n. split; [auto|]. apply O; [apply str_eqb_neq; exact E|exact H].
Qed.
Lemma kept_lost d s : (forall m c, content d m = Some c -> content s m = Some c) -> nothing_lost d s.
Proof. intros H n c E. exists n. auto. Qed.

Lemma modify_points cpp edit file d : sound d -> forall s, In s (points (modify_file cpp true edit file) d) ->
  sound s /\ nothing_lost d s /\ others_untouched file d s.
Proof.
  intros S s H. assert (SELF : sound d /\ nothing_lost d d /\ others_untouched file d d) by (split; [exact S|split; [apply lost_refl|intros m c _ E; exact E]]).
  unfold modify_file in H. cbn [points do_action] in H. destruct H as [<-|H]; [exact SELF|].
  destruct (content d file) as [t|] eqn:C; [|destruct H as [<-|[]]; exact SELF].
  destruct (edit t) as [out|e]; [|destruct H as [<-|[]]; exact SELF].
  assert (E : node d file <> None) by (unfold content in C; destruct (node d file); [discriminate|discriminate C]).
  destruct (create_backup_points file d S E) as [P Q].
  apply points_andthen in H as [H|[[] [d' [R H]]]].
  - specialize (P s H). split; [apply P|]. split; [apply (backing_lost file); exact P|apply P].
  - destruct (Q d' R) as [N [S' [O [m [M [NM CM]]]]]]. cbn [negb] in H.
    destruct (writefile_points cpp file out d' S' s H) as [S'' K]. split; [exact S''|]. split.
    + apply lost_trans with d'; [|apply kept_lost; exact K]. apply (backing_lost file). repeat split; eauto.
    + intros m' c NE X. apply K, O; assumption.
Qed.
Lemma modify_done cpp edit file d d' t l : sound d -> content d file = Some t -> edit t = Ok (l, None) ->
  execute (modify_file cpp true edit file) d = (inl tt, d') ->
  content d' file = Some (List.concat l) /\ exists m, backup_of file m /\ content d m = None /\ content d' m = Some t.
Proof.
  intros S C ED. unfold modify_file. cbn [execute do_action]. rewrite C, ED, run_andthen.
  assert (E : node d file <> None) by (unfold content in C; destruct (node d file); [discriminate|discriminate C]).
  destruct (create_backup_points file d S E) as [P Q].
  destruct (execute (create_backup_file file) d) as [[[]|f] d1] eqn:R; [|discriminate]. intros H.
  destruct (Q d1 eq_refl) as [N [S' [O [m [M [NM CM]]]]]].
  destruct (writefile_done cpp file l d1 N) as [d2 [R2 C2]]. cbn [negb] in H. rewrite R2 in H. injection H as <-. split; [exact C2|].
  exists m. split; [exact M|]. split; [unfold content; rewrite NM; reflexivity|].
  assert (I : In d2 (points (writefile cpp file (l, None) false) d1)) by (pose proof (run_in_points (writefile cpp file (l, None) false) d1) as X; rewrite R2 in X; exact X).
  apply (writefile_points cpp file (l, None) d1 S' d2 I). congruence.
Qed.
Lemma modify_raises cpp edit file d t e : content d file = Some t -> edit t = Err e -> forall b,
  execute (modify_file cpp b edit file) d = (inr (Raised e), d).
Proof. intros C E b. unfold modify_file. cbn [execute do_action]. rewrite C, E. reflexivity. Qed.

Lemma modify_files_points cpp edit l : forall d, sound d -> forall s, In s (points (modify_files cpp true edit l) d) ->
  sound s /\ nothing_lost d s /\ (forall m c, ~ In m l -> content d m = Some c -> content s m = Some c).
Proof.
  induction l as [|n l IH]; intros d S s; cbn [modify_files].
  - cbn [points]. intros [<-|[]]. split; [exact S|]. split; [apply lost_refl|auto].
  - intros H. apply points_andthen in H as [H|[[] [d' [R H]]]].
    + destruct (modify_points cpp edit n d S s H) as [A [B C]]. split; [exact A|]. split; [exact B|]. intros m c N. apply C. intros ->. apply N. left. reflexivity.
    + assert (I : In d' (points (modify_file cpp true edit n) d)) by (pose proof (run_in_points (modify_file cpp true edit n) d) as X; rewrite R in X; exact X).
      destruct (modify_points cpp edit n d S d' I) as [A [B C]]. destruct (IH d' A s H) as [A' [B' C']]. split; [exact A'|]. split; [exact (lost_trans _ _ _ B B')|].
      intros m c N E. apply C'; [intros X; apply N; right; exact X|]. apply C; [intros ->; apply N; left; reflexivity|exact E].
Qed.
Lemma replace_points cpp edit src l d : sound d -> forall s, In s (points (replace cpp true edit src l) d) ->
  sound s /\ nothing_lost d s /\ (forall m c, ~ In m l -> content d m = Some c -> content s m = Some c).
Proof.
  intros S s H. unfold replace in H. cbn [points do_action] in H.
  assert (SELF : sound d /\ nothing_lost d d /\ (forall m c, ~ In m l -> content d m = Some c -> content d m = Some c)) by (split; [exact S|split; [apply lost_refl|auto]]).
  destruct H as [<-|H]; [exact SELF|]. destruct (content d src) as [t|]; [|destruct H as [<-|[]]; exact SELF].
  exact (modify_files_points cpp (edit t) l d S s H).
Qed.

(** ** The cache *)

Lemma new_file_other n l d m : sound d -> node d n = None -> m <> n ->
  forall s, In s (points (write_pieces (length (files d)) l) (created n d)) -> content s m = content d m.
Proof.
  intros S E N s H. destruct (pieces_only _ _ _ _ H) as [A [B C]]. unfold content, node. rewrite A.
  change (nget m (names (created n d))) with (node (created n d) m). rewrite created_node by exact N. unfold node.
  destruct (nget m (names d)) as [j|] eqn:J; [|reflexivity]. pose proof (S _ _ J) as L.
  rewrite C by lia. unfold created. cbn [files]. apply nth_error_app1. exact L.
Qed.
Lemma new_file_own n l d s : In s (points (write_pieces (length (files d)) l) (created n d)) ->
  exists k, content s n = Some (List.concat (firstn k l)).
Proof.
  intros H. destruct (pieces_only _ _ _ _ H) as [A _]. destruct (pieces_points _ _ _ _ _ (created_file n d) H) as [k K]. exists k.
  unfold content, node. rewrite A. change (nget n (names (created n d))) with (node (created n d) n). rewrite created_own. exact K.
Qed.

Section Cached.
Context {T : Type}.
Variable compile : str -> str -> result T.
Variable hash : str -> str.
Variable dump : T -> list str.
Variable load : str -> option T.
Variable dir : str.
Variable used : str -> str -> Prop.
Hypothesis load_dump : forall t, load (List.concat (dump t)) = Some t.
Hypothesis load_part : forall t k, (k < length (dump t))%nat -> load (List.concat (firstn k (dump t))) = None.
Hypothesis no_coll : forall g r g' r', used g r -> used g' r' ->
  hash (hash g ++ hash r) = hash (hash g' ++ hash r') -> compile g r = compile g' r'.

Notation file := (cache_file hash dir).
Notation get := (get_recipe_parsetree compile hash dump load).

Lemma same_file g r g' r' : used g r -> used g' r' -> file g r = file g' r' -> compile g r = compile g' r'.
Proof.
  intros U U' E. unfold cache_file in E. apply app_inv_head in E. apply app_inv_tail in E. apply no_coll; assumption.
Qed.

(** every cached recipe is complete, or damaged *)
Definition usable (d : disk) : Prop :=
  sound d /\ forall g r s, used g r -> content d (file g r) = Some s -> exists t, compile g r = Ok t /\ (s = List.concat (dump t) \/ load s = None).
Notation complete := (complete_cache compile hash dump dir used).

Lemma node_content d n : sound d -> node d n = None -> content d n = None.
Proof. intros _ E. unfold content. rewrite E. reflexivity. Qed.
Lemma content_node d n i : sound d -> node d n = Some i -> exists s, content d n = Some s.
Proof.
  intros S E. unfold content. rewrite E. apply S in E. destruct (nth_error (files d) i) eqn:X; [eauto|]. apply nth_error_None in X. lia.
Qed.

(** the files of a cache while the recipe [r] is written *)
Lemma written g r t d s : usable d -> used g r -> compile g r = Ok t -> node d (file g r) = None ->
  In s (points (write_pieces (length (files d)) (dump t)) (created (file g r) d)) -> usable s.
Proof.
  intros [S W] U C N H. split; [exact (proj1 (new_file_points _ _ _ S N s H))|]. intros g' r' x U' X.
  destruct (str_eqb (file g' r') (file g r)) eqn:F.
  - apply str_eqb_eq in F. exists t. split; [rewrite (same_file _ _ _ _ U' U F); exact C|]. rewrite F in X.
    destruct (new_file_own _ _ _ _ H) as [k K]. rewrite K in X. injection X as <-.
    destruct (Nat.lt_ge_cases k (length (dump t))); [right; auto|left]. rewrite firstn_all2 by assumption. reflexivity.
  - rewrite (new_file_other _ _ _ _ S N (proj1 (str_eqb_neq _ _) F) s H) in X. exact (W _ _ _ U' X).
Qed.
Lemma get_points g r d : usable d -> used g r -> forall s, In s (points (get (Some dir) g r) d) -> usable s.
Proof.
  intros W U s H. unfold get_recipe_parsetree in H. cbn [points do_action] in H. destruct H as [<-|H]; [exact W|].
  destruct (node d (file g r)) as [i|] eqn:N.
  - cbn [points do_action] in H. destruct H as [<-|H]; [exact W|]. destruct (content d (file g r)) as [x|]; [destruct (load x)|]; destruct H as [<-|[]]; exact W.
  - destruct (compile g r) as [t|e] eqn:C; cbn [andthen points] in H; [|destruct H as [<-|[]]; exact W].
    destruct H as [<-|H]; [exact W|]. rewrite open_new in H by exact N.
    apply points_andthen in H as [H|[[] [d' [R H]]]]; [eapply written; eauto|].
    cbn [points] in H. destruct H as [<-|[]].
    pose proof (run_in_points (write_pieces (length (files d)) (dump t)) (created (file g r) d)) as P. rewrite R in P. eapply written; eauto.
Qed.
Lemma get_result g r d x d' : usable d -> used g r -> execute (get (Some dir) g r) d = (x, d') ->
  match x with inl t => compile g r = Ok t | inr f => f = BadPickle \/ exists e, f = Raised e /\ compile g r = Err e end.
Proof.
  intros [S W] U. unfold get_recipe_parsetree. cbn [execute do_action]. destruct (node d (file g r)) as [i|] eqn:N.
  - destruct (content_node _ _ _ S N) as [s E]. cbn [execute do_action]. rewrite E. destruct (W _ _ _ U E) as [t [C [->|L]]].
    + rewrite load_dump. cbn [execute]. intros [= <- <-]. exact C.
    + rewrite L. cbn [execute]. intros [= <- <-]. auto.
  - destruct (compile g r) as [t|e] eqn:C; cbn [andthen execute]; [|intros [= <- <-]; eauto]. rewrite open_new by exact N.
    rewrite run_andthen. destruct (new_file_run (file g r) (dump t) d) as [d1 [R _]]. rewrite R. cbn [execute]. intros [= <- <-]. reflexivity.
Qed.
Lemma complete_usable d : complete d -> usable d.
Proof. intros [S W]. split; [exact S|]. intros g r s U X. destruct (W _ _ _ U X) as [t [C E]]. eauto. Qed.
Lemma get_complete g r d : complete d -> used g r -> exists d', complete d' /\
  execute (get (Some dir) g r) d = (match compile g r with Ok t => inl t | Err e => inr (Raised e) end, d').
Proof.
  intros [S W] U. unfold get_recipe_parsetree. cbn [execute do_action]. destruct (node d (file g r)) as [i|] eqn:N.
  - destruct (content_node _ _ _ S N) as [s E]. exists d. split; [split; assumption|]. cbn [execute do_action]. rewrite E.
    destruct (W _ _ _ U E) as [t [C ->]]. rewrite load_dump, C. reflexivity.
  - destruct (compile g r) as [t|e] eqn:C; cbn [andthen execute]; [|exists d; split; [split; assumption|reflexivity]]. rewrite open_new by exact N.
    rewrite run_andthen. destruct (new_file_run (file g r) (dump t) d) as [d1 [R O]]. rewrite R. cbn [execute]. exists d1. split; [|reflexivity].
    assert (I : In d1 (points (write_pieces (length (files d)) (dump t)) (created (file g r) d))) by (pose proof (run_in_points (write_pieces (length (files d)) (dump t)) (created (file g r) d)) as P; rewrite R in P; exact P).
    split; [exact (proj1 (new_file_points _ _ _ S N _ I))|]. intros g' r' x U' X. destruct (str_eqb (file g' r') (file g r)) eqn:F.
    + apply str_eqb_eq in F. exists t. split; [rewrite (same_file _ _ _ _ U' U F); exact C|]. rewrite F, O in X. congruence.
    + rewrite (new_file_other _ _ _ _ S N (proj1 (str_eqb_neq _ _) F) _ I) in X. exact (W _ _ _ U' X).
Qed.

(** *** Histories *)
Notation after_events := (after_events compile hash dump load dir).
Lemma last_in {A} (l : list A) x : l <> [] -> In (last l x) l.
Proof. induction l as [|y [|z l] IH]; intros N; [congruence|left; reflexivity|right; apply IH; discriminate]. Qed.
Lemma events_usable evs : forall d, usable d -> Forall (fun e => used (ev_grammar e) (ev_recipe e)) evs -> usable (after_events evs d).
Proof.
  induction evs as [|e evs IH]; intros d W F; unfold SpecFiles.after_events; cbn [fold_left]; [exact W|]. inversion F; subst. apply IH; [|assumption].
  apply (get_points (ev_grammar e) (ev_recipe e) d); auto. unfold after_event.
  set (l := points _ d). destruct (Nat.lt_ge_cases (ev_steps e) (length l)).
  - apply nth_In. assumption.
  - rewrite nth_overflow by assumption. apply last_in. unfold l. unfold get_recipe_parsetree. cbn [points]. discriminate.
Qed.
Lemma history evs d g r x d' : complete d -> Forall (fun e => used (ev_grammar e) (ev_recipe e)) evs -> used g r ->
  execute (get (Some dir) g r) (after_events evs d) = (x, d') ->
  match x with inl t => compile g r = Ok t | inr f => f = BadPickle \/ exists e, f = Raised e /\ compile g r = Err e end.
Proof. intros W F U. apply get_result; [|exact U]. apply events_usable; [apply complete_usable; exact W|exact F]. Qed.

(** *** Dictionaries *)
Definition outcome {A} (r : result A) : A + failure := match r with Ok x => inl x | Err e => inr (Raised e) end.
Lemma map_complete {A B} (f : A -> prog B) (g : A -> result B) (l : list (Z * A)) :
  (forall k x, In (k, x) l -> forall d, complete d -> exists d', complete d' /\ execute (f x) d = (outcome (g x), d')) ->
  forall d, complete d -> exists d', complete d' /\ execute (prog_map f l) d = (outcome (map_values g l), d').
Proof.
  induction l as [|[k x] l IH]; intros H d W; cbn [prog_map map_values]; [exists d; auto|].
  destruct (H k x (or_introl eq_refl) d W) as [d1 [W1 R1]]. rewrite run_andthen, R1.
  destruct (g x) as [y|e]; cbn [outcome bind]; [|exists d1; auto].
  destruct (IH (fun k0 x0 I => H k0 x0 (or_intror I)) d1 W1) as [d2 [W2 R2]]. rewrite run_andthen, R2. exists d2. split; [exact W2|].
  destruct (map_values g l); reflexivity.
Qed.
Lemma dic_complete g l : (forall r, recipes_in l r -> used g r) -> forall d, complete d ->
  exists d', complete d' /\ execute (get_recipe_parsetree_dic compile hash dump load (Some dir) g l) d = (outcome (compile_all (compile g) l), d').
Proof.
  intros U. unfold get_recipe_parsetree_dic, compile_all. apply map_complete. intros mf [r|rs] I d W.
  - destruct (get_complete g r d W) as [d' [W' R]]; [apply U; exists mf; auto|]. exists d'. split; [exact W'|]. rewrite run_andthen, R.
    destruct (compile g r); reflexivity.
  - edestruct (map_complete (get (Some dir) g) (compile g) rs) as [d' [W' R]]; [|exact W|].
    + intros mt r J d0 W0. destruct (get_complete g r d0 W0) as [d1 [W1 R1]]; [apply U; exists mf; right; eauto|]. exists d1. split; [exact W1|]. rewrite R1. destruct (compile g r); reflexivity.
    + exists d'. split; [exact W'|]. rewrite run_andthen, R. destruct (map_values (compile g) rs); reflexivity.
Qed.

(** an interruption directly after the file was created *)
Lemma damaged g r t d : sound d -> load [] = None -> node d (file g r) = None -> compile g r = Ok t ->
  exists s, In s (points (get (Some dir) g r) d) /\ execute (get (Some dir) g r) s = (inr BadPickle, s).
Proof.
  intros S L N C. exists (created (file g r) d). split.
  - unfold get_recipe_parsetree. cbn [points do_action]. rewrite N, C. cbn [andthen points]. rewrite open_new by exact N. right. right.
    destruct (dump t); cbn [write_pieces andthen points]; left; reflexivity.
  - unfold get_recipe_parsetree. cbn [execute do_action]. rewrite created_own. cbn [execute do_action]. unfold content. rewrite created_own, created_file, L. reflexivity.
Qed.
End Cached.

(** ** Lookup *)
(** ** Without backups *)
Lemma no_backup_lost cpp edit file d t l : sound d -> content d file = Some t -> t <> [] -> edit t = Ok (l, None) ->
  (forall m, m <> file -> content d m <> Some t) ->
  exists s, In s (points (modify_file cpp false edit file) d) /\ forall m, content s m <> Some t.
Proof.
  intros S C T E U. assert (exists i, node d file = Some i) as [i N] by (unfold content in C; destruct (node d file); [eauto|discriminate]).
  exists {| names := names d; files := set_nth i [] (files d) |}. split.
  - unfold modify_file. cbn [points do_action]. rewrite C, E. cbn [andthen negb]. right.
    destruct cpp; cbn [writefile]; unfold writefile_cpp, writefile_py; cbn [points do_action snd]; rewrite N; cbn [points do_action]; rewrite N; right; right.
    + destruct l; cbn [fst write_pieces andthen points]; left; reflexivity.
    + destruct l; cbn [fst write_pieces points]; left; reflexivity.
  - intros m. unfold content. change (node {| names := names d; files := set_nth i [] (files d) |} m) with (node d m).
    destruct (node d m) as [j|] eqn:J; [|discriminate]. cbn [files]. destruct (Nat.eq_dec i j) as [->|NE].
    + rewrite nth_set_same by exact (S _ _ J). congruence.
    + rewrite nth_set_other by exact NE. intros X. apply (U m); [|unfold content; rewrite J; exact X]. intros ->. congruence.
Qed.
