(** Model of TrackingDict and TrackingList (utils/debugging_utils.py 225-419), used by write with
    check_arrays=True (endf_parser.py 1020-1021 and 1066-1067).

    Simplifications:
    - a tracker and the object it wraps are two values, [val] and [tracker]; an object that is
      not wrapped has no tracker;
    - negative indices of lists raise an IndexError (as in ModelPath.v);
    - the messages of the exceptions are not modelled. *)
From Coq Require Import Ascii String ZArith Bool List.
From Verif Require Import PyBase ModelInterp ModelPath.
Import ListNotations.
Open Scope Z_scope.

(** 269-271 [_trackingobjs] and [_accessed]; 369-370. TrackingList creates a tracker at every
    access of a list or dictionary stored in it (378, 382: [key not in self._trackingobjs] looks
    for the index among the trackers) and never consults it (409), so no trackers are kept. *)
Inductive tracker : Type :=
| TDict (accessed : list Z) (subs : list (key * tracker))
| TList (accessed : list bool).

Fixpoint sget (k : key) (s : list (key * tracker)) : option tracker :=
  match s with
  | [] => None
  | (k', t) :: r => if key_eqb k k' then Some t else sget k r
  end.
Fixpoint sset (k : key) (t : tracker) (s : list (key * tracker)) : list (key * tracker) :=
  match s with
  | [] => [(k, t)]
  | (k', t') :: r => if key_eqb k k' then (k', t) :: r else (k', t') :: sset k t r
  end.
Fixpoint sdel (k : key) (s : list (key * tracker)) : list (key * tracker) :=
  match s with
  | [] => []
  | (k', t) :: r => if key_eqb k k' then r else (k', t) :: sdel k r
  end.

(** [str(key).startswith("__")] *)
Definition hidden (k : key) : bool :=
  match k with
  | KStr (a :: b :: _) => chr_eqb a "_"%char && chr_eqb b "_"%char
  | _ => false
  end.

(** 281-287, and the constructors 262-271 and 361-370; None for objects that are not wrapped *)
Definition new_tracker (v : val) : option tracker :=
  match v with
  | VDict _ => Some (TDict [] [])
  | VList l => Some (TList (map (fun _ => false) l))
  | _ => None
  end.
(** 273-276 *)
Definition should_track (k : key) (v : val) : bool :=
  negb (hidden k) && match new_tracker v with Some _ => true | None => false end.

(** The bookkeeping of [__getitem__] for the key [k] of an existing element [x] (289-296 and
    372-385): the tracker afterwards and the tracker of the returned object *)
Definition fetch (t : option tracker) (k : key) (x : val) : option tracker * option tracker :=
  match t with
  | None => (None, None)
  | Some (TDict acc subs) =>
      let acc := match k with
                 | KInt z => if existsb (Z.eqb z) acc then acc else z :: acc
                 | KStr _ => acc
                 end in
      let subs := match sget k subs with
                  | Some _ => subs
                  | None => match new_tracker x with
                            | Some tx => if should_track k x then sset k tx subs else subs
                            | None => subs
                            end
                  end in
      (Some (TDict acc subs), sget k subs)
  | Some (TList acc) =>
      match k with
      | KInt i => (Some (TList (list_upd acc (Z.to_nat i) true)), new_tracker x)
      | KStr _ => (t, None)
      end
  end.
(** the tracker of [k] changed into [tx] *)
Definition keep (t : option tracker) (k : key) (tx : option tracker) : option tracker :=
  match t, tx with
  | Some (TDict acc subs), Some tx =>
      Some (TDict acc (match sget k subs with Some _ => sset k tx subs | None => subs end))
  | _, _ => t
  end.

(** [f] applied to the object reached by [root[k1]..[kn]], where [root] is a tracker or a plain
    object *)
Fixpoint track_at {A : Type} (p : list key) (f : val -> option tracker -> result A * val * option tracker)
    (v : val) (t : option tracker) : result A * val * option tracker :=
  match p with
  | [] => f v t
  | k :: r =>
      match item v k with
      | Err e => (Err e, v, t)
      | Ok x =>
          let '(t', tx) := fetch t k x in
          let '(res, x', tx') := track_at r f x tx in
          (res, putitem k x' v, keep t' k tx')
      end
  end.

(** the expression [root[k1]..[kn]] *)
Definition track_read (p : list key) (v : val) (t : option tracker) : result val * val * option tracker :=
  track_at p (fun x tx => (Ok x, x, tx)) v t.

(** 298-303 and 387-391: TrackingList has no attribute [_trackinglists] *)
Definition track_setitem (k : key) (y : val) (v : val) (t : option tracker) : result unit * val * option tracker :=
  match t with
  | None => let '(r, v') := setitem k y v in (r, v', None)
  | Some (TDict acc subs) =>
      let acc := match k with KInt z => filter (fun a => negb (a =? z)) acc | KStr _ => acc end in
      let '(r, v') := setitem k y v in (r, v', Some (TDict acc (sdel k subs)))
  | Some (TList acc) =>
      match setitem k y v with
      | (Ok _, v') =>
          (Err AttributeError, v',
           Some (TList (match k with KInt i => list_upd acc (Z.to_nat i) false | KStr _ => acc end)))
      | (Err e, v') => (Err e, v', t)
      end
  end.
(** 305-310: a set has no [__delitem__]; 393-397: TrackingList has no attribute [_baselists] *)
Definition track_delitem (k : key) (v : val) (t : option tracker) : result unit * val * option tracker :=
  match t with
  | None => let '(r, v') := delitem k v in (r, v', None)
  | Some (TDict acc subs) =>
      if match k with KInt z => existsb (Z.eqb z) acc | KStr _ => false end then (Err AttributeError, v, t)
      else let '(r, v') := delitem k v in (r, v', Some (TDict acc (sdel k subs)))
  | Some (TList _) => (Err AttributeError, v, t)
  end.

(** The statements executed with a tracked dictionary: [root[k1]..[kn]],
    [root[k1]..[kn][k] = y] and [del root[k1]..[kn][k]] *)
Inductive op : Type :=
| ORead (p : list key)
| OSet (p : list key) (k : key) (y : val)
| ODel (p : list key) (k : key).

Definition run_op (o : op) (s : val * option tracker) : val * option tracker :=
  let '(v, t) := s in
  match o with
  | ORead p => let '(_, v', t') := track_read p v t in (v', t')
  | OSet p k y => let '(_, v', t') := track_at p (track_setitem k y) v t in (v', t')
  | ODel p k => let '(_, v', t') := track_at p (track_delitem k) v t in (v', t')
  end.
(** A TrackingDict of [d] after the statements [ops]. A statement that raises has no further
    effect; the program may go on (as [key in tracker] does, which is evaluated by a read). *)
Definition run_ops (ops : list op) (d : dict) : val * option tracker :=
  fold_left (fun s o => run_op o s) ops (VDict d, new_tracker (VDict d)).

Definition all_ok {A : Type} (f : A -> result unit) : list A -> result unit :=
  fix go l := match l with
              | [] => Ok tt
              | x :: r => do _ <- f x; go r
              end.

(** 318-330 and 404-413. The trackers are visited in the order of their creation, not in the
    order of the dictionary: only the message depends on it. *)
Fixpoint verify (t : tracker) (v : val) {struct t} : result unit :=
  match t, v with
  | TDict acc subs, VDict d =>
      if negb (match acc with [] => true | _ => false end)
         && existsb (fun z => negb (existsb (Z.eqb z) acc)) (int_keys d)
      then Err IndexError
      else all_ok (fun kt => let '(k, t') := kt in
                             match dget k d with Some x => verify t' x | None => Ok tt end) subs
  | TList acc, VList l =>
      if existsb (fun b => b) acc && existsb (fun b => negb b) (firstn (length l) acc)
      then Err IndexError else Ok tt
  | _, _ => Ok tt
  end.
Definition verify_complete_retrieval (s : val * option tracker) : result unit :=
  match snd s with Some t => verify t (fst s) | None => Ok tt end.
