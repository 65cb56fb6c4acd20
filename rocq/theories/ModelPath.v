(** Model of EndfPath, EndfVariable and EndfDict (utils/accessories.py) and of the list
    helpers (interpreter/helpers.py).

    Simplifications:
    - objects are values: an object reachable in two ways is not modelled; a mutating
      method returns the object after the call, also if it raises;
    - letters and digits are the ASCII ones (str.isalnum, str.isdigit, str.strip accept
      more);
    - the objects of ModelInterp.v: numbers, strings, lists, dictionaries with int or str
      keys, None. *)
From Coq Require Import Ascii String ZArith Bool Lia List.
From Verif Require Import PyBase ModelInterp.
Import ListNotations.
Open Scope Z_scope.

(** ** Strings *)

(** [s.split(c)] *)
Fixpoint split_chr (c : ascii) (s : str) : list str :=
  match s with
  | [] => [[]]
  | x :: r =>
      if chr_eqb x c then [] :: split_chr c r
      else match split_chr c r with
           | w :: ws => (x :: w) :: ws
           | [] => [[x]]
           end
  end.

(** [c.join(l)] *)
Fixpoint join (c : str) (l : list str) : str :=
  match l with
  | [] => []
  | [w] => w
  | w :: r => w ++ c ++ join c r
  end.

Definition is_letter (c : ascii) : bool :=
  ((65 <=? code c)%nat && (code c <=? 90)%nat) || ((97 <=? code c)%nat && (code c <=? 122)%nat).
Definition is_alnum_chr (c : ascii) : bool := is_letter c || is_digit c.
(** [s.isdigit()], [s.isalnum()]: false for the empty string *)
Definition isdigit (s : str) : bool := match s with [] => false | _ => forallb is_digit s end.
Definition isalnum (s : str) : bool := match s with [] => false | _ => forallb is_alnum_chr s end.

(** [s.index(c)] and the parts before and after it *)
Fixpoint cut_at (c : ascii) (s : str) : option (str * str) :=
  match s with
  | [] => None
  | x :: r => if chr_eqb x c then Some ([], r)
              else match cut_at c r with Some (a, b) => Some (x :: a, b) | None => None end
  end.

(** ** Constructing a path *)

(** accessories.py 163-173 *)
Definition expand_array_notation (t : str) : result (list str) :=
  match cut_at "["%char t with
  | None => Ok [t]
  | Some (varname, rest) =>
      match rev t with
      | c :: _ =>
          if chr_eqb c "]"%char
          then Ok (varname :: map strip (split_chr ","%char (removelast rest)))
          else Err ValueError
      | [] => Err ValueError
      end
  end.

(** 175-181 *)
Definition valid_element (k : key) : bool :=
  match k with
  | KInt _ => true
  | KStr s =>
      negb ((negb (isalnum (remove_chr "_"%char s)) ||
             match s with c :: _ => is_digit c | [] => false end) &&
            negb (str_eqb s $"*"))
  end.
Definition validate_path (p : list key) : result unit :=
  if forallb valid_element p then Ok tt else Err ValueError.

(** 151-161, after [str(x) for x in p]. [int(x)] of a string of digits. *)
Definition element_of (x : str) : key :=
  if isdigit x then match digits_val_acc x 0 with Some z => KInt z | None => KStr x end else KStr x.
Definition standardize (p : list str) : result (list key) :=
  do l <- mapM expand_array_notation (filter (fun x => negb (str_eqb x [])) (map strip p));
  let res := map element_of (List.concat l) in
  do _ <- validate_path res; Ok res.

Definition str_of_key (k : key) : str := match k with KInt z => str_of_Z z | KStr s => s end.

(** the forms of the argument [pathspec], 134-149: int, str, sequence of int and str, and
    another path. The options are modelled by [pathopts]. *)
Inductive pathspec : Type := PInt (z : Z) | PStr (s : str) | PSeq (l : list key) | PPath (p : list key).
Definition path_of (p : pathspec) : result (list key) :=
  match p with
  | PInt z => standardize (split_chr "/"%char (str_of_Z z))
  | PStr s => standardize (split_chr "/"%char s)
  | PSeq l => standardize (map str_of_key l)
  | PPath p => Ok p
  end.

(** 183-188 *)
Definition path_eqb (p q : list key) : bool := forallb (fun xy => key_eqb (fst xy) (snd xy)) (combine p q).
(** 190-191 *)
Definition path_str (p : list key) : str := join $"/" (map str_of_key p).
(** 202-208: [self + other], [other] being a path *)
Definition path_add (p q : list key) : result (list key) := standardize (map str_of_key (p ++ q)).

(** ** Access *)

(** [cur[el]] for an element of a path, which is a string or a non-negative number *)
Definition item (cur : val) (el : key) : result val :=
  match cur, el with
  | VDict d, _ => match dget el d with Some v => Ok v | None => Err KeyError end
  | VList l, KInt i =>
      if i <? 0 then Err IndexError else
      match nth_error l (Z.to_nat i) with Some v => Ok v | None => Err IndexError end
  | VStr s, KInt i =>
      if i <? 0 then Err IndexError else
      match nth_error s (Z.to_nat i) with Some c => Ok (VStr [c]) | None => Err IndexError end
  | _, _ => Err TypeError
  end.

(** 239-242 *)
Fixpoint path_lookup (p : list key) (cur : val) : result val :=
  match p with
  | [] => Ok cur
  | el :: r => do c <- item cur el; path_lookup r c
  end.

(** 314-320 *)
Definition path_exists (p : list key) (cur : val) : bool :=
  match path_lookup p cur with
  | Ok _ => true
  | Err KeyError | Err IndexError | Err TypeError => false
  | Err _ => false
  end.

(** array_type == "dict", leading == "dict" *)
Record pathopts : Type := { po_dict : bool; po_leading : bool }.

Fixpoint list_upd {A} (l : list A) (i : nat) (v : A) : list A :=
  match l, i with
  | [], _ => []
  | _ :: r, O => v :: r
  | x :: r, S j => x :: list_upd r j v
  end.
Fixpoint list_del {A} (l : list A) (i : nat) : list A :=
  match l, i with
  | [], _ => []
  | _ :: r, O => r
  | x :: r, S j => x :: list_del r j
  end.

(** [cur[el] = v] *)
Definition setitem (el : key) (v : val) (cur : val) : result unit * val :=
  match cur, el with
  | VDict d, _ => (Ok tt, VDict (dset el v d))
  | VList l, KInt i =>
      if (i <? 0) || (Z.of_nat (length l) <=? i) then (Err IndexError, cur)
      else (Ok tt, VList (list_upd l (Z.to_nat i) v))
  | _, _ => (Err TypeError, cur)
  end.

(** [k] applied to [cur.setdefault(el, new)] *)
Definition on_setdefault (el : key) (new : val) (cur : val) (k : val -> result unit * val) : result unit * val :=
  match cur with
  | VDict d =>
      let '(r, c) := k (match dget el d with Some c => c | None => new end) in
      (r, VDict (dset el c d))
  | _ => (Err AttributeError, cur)
  end.

(** helpers.py 15-22. The other types: a dictionary has no [append]. *)
Definition list_set (i : Z) (v : val) (cur : val) : result unit * val :=
  match cur with
  | VList l =>
      let n := Z.of_nat (length l) in
      if (i <? 0) || (n <? i) then (Err IndexError, cur)
      else if i =? n then (Ok tt, VList (l ++ [v]))
      else (Ok tt, VList (list_upd l (Z.to_nat i) v))
  | VDict d =>
      let n := Z.of_nat (length d) in
      if (i <? 0) || (n <? i) then (Err IndexError, cur)
      else if i =? n then (Err AttributeError, cur)
      else (Ok tt, VDict (dset (KInt i) v d))
  | VStr s =>
      let n := Z.of_nat (length s) in
      if (i <? 0) || (n <? i) then (Err IndexError, cur)
      else if i =? n then (Err AttributeError, cur)
      else (Err TypeError, cur)
  | _ => (Err TypeError, cur)
  end.

(** helpers.py 25-31: [k] applied to [list_setdefault(cur, i, new)] *)
Definition on_list_setdefault (i : Z) (new : val) (cur : val) (k : val -> result unit * val) : result unit * val :=
  match cur with
  | VList l =>
      let n := Z.of_nat (length l) in
      if (i <? 0) || (n <? i) then (Err IndexError, cur)
      else
        let l1 := if i =? n then l ++ [new] else l in
        match nth_error l1 (Z.to_nat i) with
        | Some c => let '(r, c') := k c in (r, VList (list_upd l1 (Z.to_nat i) c'))
        | None => (Err IndexError, cur)
        end
  | VDict d =>
      let n := Z.of_nat (length d) in
      if (i <? 0) || (n <? i) then (Err IndexError, cur)
      else if i =? n then (Err AttributeError, cur)
      else match dget (KInt i) d with
           | Some c => let '(r, c') := k c in (r, VDict (dset (KInt i) c' d))
           | None => (Err KeyError, cur)
           end
  | VStr s =>
      let n := Z.of_nat (length s) in
      if (i <? 0) || (n <? i) then (Err IndexError, cur)
      else if i =? n then (Err AttributeError, cur)
      else match nth_error s (Z.to_nat i) with
           | Some c => (fst (k (VStr [c])), cur)
           | None => (Err IndexError, cur)
           end
  | _ => (Err TypeError, cur)
  end.

(** 271-297 *)
Fixpoint path_set (o : pathopts) (in_leading : bool) (p : list key) (v : val) (cur : val) : result unit * val :=
  match p with
  | [] => (Ok tt, cur)
  | el :: r =>
      let lead := in_leading && match el with KInt _ => true | KStr _ => false end in
      if po_dict o || (lead && po_leading o) then
        match r with
        | [] => setitem el v cur
        | _ :: _ => on_setdefault el (VDict []) cur (path_set o lead r v)
        end
      else
        match r with
        | next :: _ =>
            let new := match next with KInt _ => VList [] | KStr _ => VDict [] end in
            match el with
            | KInt i => on_list_setdefault i new cur (path_set o lead r v)
            | KStr _ => on_setdefault el new cur (path_set o lead r v)
            end
        | [] =>
            match el with
            | KInt i => list_set i v cur
            | KStr _ => setitem el v cur
            end
        end
  end.

(** [del cur[el]] *)
Definition delitem (el : key) (cur : val) : result unit * val :=
  match cur, el with
  | VDict d, _ => match dget el d with Some _ => (Ok tt, VDict (ddel el d)) | None => (Err KeyError, cur) end
  | VList l, KInt i =>
      if (i <? 0) || (Z.of_nat (length l) <=? i) then (Err IndexError, cur)
      else (Ok tt, VList (list_del l (Z.to_nat i)))
  | _, _ => (Err TypeError, cur)
  end.
(** the object [cur[el]] changed into [c] *)
Definition putitem (el : key) (c : val) (cur : val) : val :=
  match cur, el with
  | VDict d, _ => VDict (dset el c d)
  | VList l, KInt i => VList (list_upd l (Z.to_nat i) c)
  | _, _ => cur
  end.
(** 338-341; [self._path_elements[-1]] of the empty path raises an IndexError *)
Fixpoint path_remove (p : list key) (cur : val) : result unit * val :=
  match p with
  | [] => (Err IndexError, cur)
  | el :: r =>
      match r with
      | [] => delitem el cur
      | _ :: _ =>
          match item cur el with
          | Err e => (Err e, cur)
          | Ok c => let '(x, c') := path_remove r c in (x, putitem el c' cur)
          end
      end
  end.

(** ** Views *)

(** A view (EndfDict, EndfList) is a reference to an object inside the user's data: the path
    from the outermost object to it, as a sequence of keys, and its options. *)
(** [v_path] is the attribute [path]. *)
Record view : Type := { v_at : list key; v_path : list key; v_opts : pathopts }.
(** 677-714: EndfDict(d, array_type); 716-758: EndfList(l, array_type) *)
Definition dict_view (array_dict : bool) : view := {| v_at := []; v_path := []; v_opts := {| po_dict := array_dict; po_leading := true |} |}.

(** the keys accepted by [__getitem__] and [__setitem__], 504-527: str, int, EndfPath,
    sequences of these *)
Inductive viewkey : Type := KeyOne (p : pathspec) | KeySeq (l : list pathspec).
Fixpoint add_all (p : list key) (l : list pathspec) : result (list key) :=
  match l with
  | [] => Ok p
  | q :: r => do q' <- path_of q; do p' <- path_add p q'; add_all p' r
  end.
Definition key_path (k : viewkey) : result (list key) :=
  match k with
  | KeyOne p => path_of p
  | KeySeq l => add_all [] l
  end.

(** the method [f] of the object referred to *)
Fixpoint at_path (p : list key) (f : val -> result unit * val) (root : val) : result unit * val :=
  match p with
  | [] => f root
  | el :: r =>
      match item root el with
      | Err e => (Err e, root)
      | Ok c => let '(x, c') := at_path r f c in (x, putitem el c' root)
      end
  end.

(** 504-527: a dictionary or list is returned as a view of it. An object that is no
    dictionary and no list is returned itself. *)
Inductive got : Type := GView (v : view) | GVal (x : val).
Definition view_get (w : view) (k : viewkey) (root : val) : result got :=
  do p <- key_path k;
  do x <- (do c <- path_lookup (v_at w) root; path_lookup p c);
  match x with
  | VDict _ => Ok (GView {| v_at := v_at w ++ p; v_path := p; v_opts := {| po_dict := po_dict (v_opts w); po_leading := true |} |})
  | VList _ => Ok (GView {| v_at := v_at w ++ p; v_path := p; v_opts := {| po_dict := po_dict (v_opts w); po_leading := false |} |})
  | _ => Ok (GVal x)
  end.
(** 529-542 *)
Definition view_set (w : view) (k : viewkey) (x : val) (root : val) : result unit * val :=
  match key_path k with
  | Err e => (Err e, root)
  | Ok p => at_path (v_at w) (path_set (v_opts w) true p x) root
  end.
(** 544-547: with an EndfPath as key the local variable is unassigned *)
Definition view_del (w : view) (k : pathspec) (root : val) : result unit * val :=
  match k with
  | PPath _ => (Err NameError, root)
  | _ =>
      match path_of k with
      | Err e => (Err e, root)
      | Ok p => at_path (v_at w) (path_remove p) root
      end
  end.
(** 549-553, 700-707: iter, len, keys, values, items are those of the object *)
Definition view_object (w : view) (root : val) : result val := path_lookup (v_at w) root.
(** 555-565 *)
Definition view_exists (w : view) (k : pathspec) (root : val) : result bool :=
  do p <- path_of k; do c <- path_lookup (v_at w) root; Ok (path_exists p c).

(** EndfVariable, 360-378: the path, the value used if it does not exist *)
Definition variable_new (p : list key) (v : option val) (root : val) : result unit * val :=
  if path_exists p root then (Ok tt, root)
  else match v with
       | None => (Err KeyError, root)
       | Some x => path_set {| po_dict := true; po_leading := true |} true p x root
       end.
(** 400-420: [self._varname.get(self._parent)], [self._varname.set(self._parent, v)]: the
    name alone as path, in the object that contains it *)
Definition variable_get (p : list key) (root : val) : result val :=
  do c <- path_lookup (removelast p) root;
  path_lookup [last p (KStr [])] c.
Definition variable_set (p : list key) (x : val) (root : val) : result unit * val :=
  at_path (removelast p) (path_set {| po_dict := true; po_leading := true |} true [last p (KStr [])] x) root.

(** ** Arrays as lists *)

Definition is_int_key (k : key) : bool := match k with KInt _ => true | KStr _ => false end.
Definition int_keys (d : dict) : list Z :=
  flat_map (fun kv => match fst kv with KInt z => [z] | KStr _ => [] end) d.
Definition zmin (l : list Z) (a : Z) : Z := fold_left Z.min l a.
Definition zmax (l : list Z) (a : Z) : Z := fold_left Z.max l a.

(** helpers.py 40-45, the entries being converted already. [min] of nothing raises a
    ValueError. *)
Definition as_array (d : dict) : result val :=
  if forallb (fun kv => is_int_key (fst kv)) d then
    match int_keys d with
    | [] => Err ValueError
    | z :: r =>
        let a := zmin r z in let b := zmax r z in
        Ok (VList (map (fun k => match dget (KInt k) d with Some v => v | None => VNone end) (zrange a b)))
    end
  else Ok (VDict d).
(** helpers.py 34-45. What is left after an exception is not modelled. *)
Fixpoint convert (v : val) : result val :=
  match v with
  | VDict d =>
      do d' <- (fix go (d : dict) : result dict :=
                  match d with
                  | [] => Ok []
                  | (k, x) :: r => do y <- convert x; do r' <- go r; Ok ((k, y) :: r')
                  end) d;
      as_array d'
  | _ => Ok v
  end.
Fixpoint array_dict_to_list (d : dict) : result dict :=
  match d with
  | [] => Ok []
  | (k, x) :: r => do y <- convert x; do r' <- array_dict_to_list r; Ok ((k, y) :: r')
  end.

(** helpers.py 48-57: the dictionary "__startidcs" of a section, one variable of it *)
Inductive startinfo : Type := SInfo (start : option Z) (sub : list (Z * startinfo)).
Fixpoint sget (i : Z) (l : list (Z * startinfo)) : option startinfo :=
  match l with [] => None | (j, s) :: r => if i =? j then Some s else sget i r end.
Fixpoint sset (i : Z) (s : startinfo) (l : list (Z * startinfo)) : list (Z * startinfo) :=
  match l with
  | [] => [(i, s)]
  | (j, t) :: r => if i =? j then (j, s) :: r else (j, t) :: sset i s r
  end.
Definition s_empty : startinfo := SInfo None [].
Fixpoint shift_indices (idcs : list Z) (info : startinfo) : list Z * startinfo :=
  match idcs with
  | [] => ([], info)
  | i :: r =>
      let '(SInfo st sub) := info in
      let shift := match st with Some s => s | None => i end in
      let '(l, s') := shift_indices r (match sget i sub with Some s => s | None => s_empty end) in
      (i - shift :: l, SInfo (Some shift) (sset i s' sub))
  end.
