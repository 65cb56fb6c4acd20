(** C42: complete retrieval of arrays. *)
From Coq Require Import Ascii String ZArith Bool Lia List.
From Verif Require Import PyBase ModelFortran ModelInterp ModelPath ModelTracking SpecTracking ProofTracking.
Import ListNotations.
Open Scope Z_scope.

Local Definition n (z : Z) : val := VNum (NInt z).
Local Definition k (s : string) : key := KStr ($ s).

(** After any statements that read, or that set or delete internal variables, the check raises an
    IndexError if and only if there is an array with an element that was read and another one
    that was not; otherwise it succeeds. *)
Theorem C42_detects d ops : Forall reads_or_hidden ops ->
  let s := run_ops ops d in
  (verify_complete_retrieval s = Err IndexError <-> partly_read (fst s) ops) /\
  (verify_complete_retrieval s = Ok tt <-> ~ partly_read (fst s) ops).
Proof. exact (verify_ops d ops). Qed.

(** Reading through the tracker gives the same objects or the same exception as reading directly
    and changes nothing. *)
Theorem C42_transparent p v t : exists t', track_read p v t = (path_lookup p v, v, t').
Proof. exact (read_value p v t). Qed.

Local Definition tables : dict :=
  [(k "NP", n 2); (k "E", VDict [(KInt 1, n 11); (KInt 2, n 12); (KInt 3, n 13)]);
   (k "sub", VDict [(k "P", VDict [(KInt 1, VList [n 1; n 2])])])].
Local Definition first_two : list op :=
  [ORead [k "NP"]; OSet [] (k "__up") VNone; ORead [k "E"; KInt 1]; ORead [k "E"; KInt 2]; ODel [] (k "__up")].
Local Definition everything : list op :=
  first_two ++ [ORead [k "E"; KInt 3]; ORead [k "sub"; k "P"; KInt 1; KInt 1]; ORead [k "sub"; k "P"; KInt 1; KInt 0]].
Example C42_detects_example :
  Forall reads_or_hidden first_two /\ Forall reads_or_hidden everything /\
  verify_complete_retrieval (run_ops first_two tables) = Err IndexError /\
  partly_read (fst (run_ops first_two tables)) first_two /\
  verify_complete_retrieval (run_ops everything tables) = Ok tt /\
  verify_complete_retrieval (run_ops (removelast everything) tables) = Err IndexError.
Proof.
  assert (A : Forall reads_or_hidden first_two) by (unfold first_two; repeat (constructor; [first [exact I|eexists; reflexivity]|]); constructor).
  split; [exact A|]. split; [apply Forall_app; split; [exact A|repeat (constructor; [exact I|]); constructor]|].
  split; [reflexivity|]. split; [apply (C42_detects tables first_two A); reflexivity|]. split; reflexivity.
Qed.

(** Not every element that is not written is detected: an array of which no element is read
    passes the check, *)
Theorem C42_unread_refuted : exists d ops q v i,
  Forall reads_or_hidden ops /\ reaches (VDict d) q v /\ has_element v i /\ ~ was_read ops (q ++ [KInt i]) /\
  verify_complete_retrieval (run_ops ops d) = Ok tt.
Proof.
  exists tables, [ORead [k "NP"]], [k "E"], (VDict [(KInt 1, n 11); (KInt 2, n 12); (KInt 3, n 13)]), 1.
  split; [constructor; [exact I|constructor]|]. split; [eapply rc_step; [intros [r E]; discriminate E|reflexivity|constructor]|].
  split; [exists (n 11); reflexivity|]. split; [|reflexivity].
  intros [o [r [[<-|[]] E]]]. discriminate.
Qed.
Print Assumptions C42_unread_refuted.
(** and so does a list within a list, also if only some of its elements are read. *)
Theorem C42_nested_list_refuted : exists d p i j x y ops,
  Forall reads_or_hidden ops /\ path_lookup (p ++ [KInt i]) (VDict d) = Ok x /\ path_lookup (p ++ [KInt j]) (VDict d) = Ok y /\
  was_read ops (p ++ [KInt i]) /\ ~ was_read ops (p ++ [KInt j]) /\
  verify_complete_retrieval (run_ops ops d) = Ok tt.
Proof.
  exists [(k "A", VList [VList [n 1; n 2]])], [k "A"; KInt 0], 0, 1, (n 1), (n 2), [ORead [k "A"; KInt 0; KInt 0]].
  split; [constructor; [exact I|constructor]|]. split; [reflexivity|]. split; [reflexivity|].
  split; [exists (ORead [k "A"; KInt 0; KInt 0]), []; split; [left; reflexivity|reflexivity]|]. split; [|reflexivity].
  intros [o [r [[<-|[]] E]]]. discriminate.
Qed.
Print Assumptions C42_nested_list_refuted.
(** A tracked dictionary is not a full replacement of the dictionary: deleting an element that was
    read raises an AttributeError, deleting it before does not. *)
Theorem C42_delete_refuted : exists d i,
  fst (fst (track_at [k "E"] (track_delitem (KInt i)) (VDict d) (new_tracker (VDict d)))) = Ok tt /\
  (let s := run_ops [ORead [k "E"; KInt i]] d in
   fst (fst (track_at [k "E"] (track_delitem (KInt i)) (fst s) (snd s))) = Err AttributeError).
Proof. exists tables, 1. split; reflexivity. Qed.
Print Assumptions C42_delete_refuted.

Print Assumptions C42_detects.
Print Assumptions C42_transparent.
