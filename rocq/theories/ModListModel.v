(** Model of ModuleList and ParameterList: returnn/frontend/container.py. *)
From Coq Require Import String Ascii.
From Verif Require Import Base PyDict ModTreeModel.
From Verif Require DimModel.
Local Open Scope nat_scope.

(** Both classes store their entries as attributes of the object. [kind]: which of the two. *)
Inductive kind := KMod | KParam.
Definition wrap (k : kind) (x : nat) : attr := match k with KMod => AMod x | KParam => AParam x end.
(** [isinstance(value, rf.Module)] / [isinstance(value, rf.Parameter)] *)
Definition unwrap (k : kind) (a : attr) : option nat :=
  match k, a with KMod, AMod x => Some x | KParam, AParam x => Some x | _, _ => None end.
Notation cont := (@dict string attr).

(** python [str(i)] *)
Definition str (z : Z) : string := DimModel.int_str z.
(** python [int(s)] for ASCII strings: white space around, a sign, digits with single underscores between them *)
Definition is_space (c : ascii) : bool := let n := nat_of_ascii c in ((9 <=? n) && (n <=? 13)) || ((28 <=? n) && (n <=? 32)).
Definition is_digit (c : ascii) : bool := let n := nat_of_ascii c in (48 <=? n) && (n <=? 57).
Fixpoint lstrip (l : list ascii) : list ascii := match l with c :: l' => if is_space c then lstrip l' else l | [] => [] end.
Definition strip (l : list ascii) : list ascii := rev (lstrip (rev (lstrip l))).
Fixpoint digits (l : list ascii) (after_digit : bool) : bool :=
  match l with
  | [] => after_digit
  | c :: l' => if is_digit c then digits l' true else Ascii.eqb c "_" && after_digit && digits l' false
  end.
(** _is_int_str, container.py 221-226 *)
Definition is_int_str (s : string) : bool :=
  match strip (list_ascii_of_string s) with
  | c :: l => if Ascii.eqb c "+" || Ascii.eqb c "-" then digits l false else digits (c :: l) false
  | [] => false
  end.

(** _get_modules, container.py 41-42, and _get_parameters 184-185 *)
Fixpoint objs (k : kind) (v : cont) : list (string * nat) :=
  match v with
  | [] => []
  | (key, a) :: v' => match unwrap k a with Some x => (key, x) :: objs k v' | None => objs k v' end
  end.
Fixpoint enum_from {A} (i : nat) (l : list A) : list (nat * A) := match l with [] => [] | x :: l' => (i, x) :: enum_from (S i) l' end.

(** __init__, container.py 26-30 and 169-173: from a dict. [_convert_to_module] is the identity on modules. *)
Definition init_dict (k : kind) (d : list (string * nat)) : cont :=
  fold_left (fun v ix => let '(i, (key, x)) := ix in
      dset v (if is_int_str key then str (Z.of_nat i) else key) (wrap k x)) (enum_from 0 d) [].
(** container.py 31-33 and 174-176: from another list of this class *)
Definition init_copy (k : kind) (v : cont) : cont := fold_left (fun w kx => dset w (fst kx) (wrap k (snd kx))) (objs k v) [].
(** container.py 34-39 and 177-182: from an iterable, or from the arguments *)
Definition init_list (k : kind) (l : list nat) : cont :=
  fold_left (fun v ix => dset v (str (Z.of_nat (fst ix))) (wrap k (snd ix))) (enum_from 0 l) [].
(** __len__, container.py 59-60 and 202-203; __iter__ 62-63 and 205-206 *)
Definition len (k : kind) (v : cont) : nat := length (objs k v).
Definition iter (k : kind) (v : cont) : list nat := map snd (objs k v).
(** append, container.py 44-49 and 187-192; extend 51-57 and 194-200 *)
Definition append (k : kind) (v : cont) (x : nat) : cont := dset v (str (Z.of_nat (len k v))) (wrap k x).
Definition extend (k : kind) (v : cont) (l : list nat) : cont := fold_left (append k) l v.

(** python [l[i]] *)
Definition index {A} (l : list A) (i : Z) : res A :=
  let n := Z.of_nat (length l) in
  if (i <? - n)%Z || (n <=? i)%Z then Err IndexError
  else match nth_error l (Z.to_nat (if (i <? 0)%Z then i + n else i)) with Some x => Ok x | None => Err IndexError end.
(** the position to which python resolves a bound of a slice *)
Definition bound (n : nat) (i : Z) : nat := if (i <? 0)%Z then Z.to_nat (i + Z.of_nat n) else Nat.min (Z.to_nat i) n.
Definition start_of (n : nat) (i : option Z) : nat := match i with Some i => bound n i | None => 0 end.
Definition stop_of (n : nat) (i : option Z) : nat := match i with Some i => bound n i | None => n end.
(** python [l[start:stop]] *)
Definition slice {A} (l : list A) (start stop : option Z) : list A := pyslice l (start_of (length l) start) (stop_of (length l) stop).

(** __getitem__, container.py 69-77 and 208-212. Slices with a step are not modelled. *)
Definition getitem (k : kind) (v : cont) (i : Z) : res nat := index (iter k v) i.
Definition getslice (k : kind) (v : cont) (start stop : option Z) : cont := init_dict k (slice (objs k v) start stop).

(** ModuleList.__setitem__ with an integer, container.py 104-106 *)
Definition setitem (v : cont) (i : Z) (x : nat) : res cont :=
  let* key := index (map fst (objs KMod v)) i in
  Ok (dset v key (AMod x)).
(** container.py 90-93; [hasattr] does not look at class attributes here. The counter is negative for a negative start. *)
Fixpoint add_new (v : cont) (i : Z) (l : list nat) : res (cont * Z) :=
  match l with
  | [] => Ok (v, i)
  | x :: l' =>
      let* _ := assert_ (negb (dhas v (str i))) in
      add_new (dset v (str i) (AMod x)) (i + 1) l'
  end.
(** container.py 94-99 *)
Fixpoint add_remaining (v : cont) (i : Z) (l : list (string * nat)) : res cont :=
  match l with
  | [] => Ok v
  | (k, x) :: l' =>
      let k := if is_int_str k then str i else k in
      let* _ := assert_ (negb (dhas v k)) in
      add_remaining (dset v k (AMod x)) (i + 1) l'
  end.
(** The modules to be assigned: other ones, or the list itself ([l[:] = l]) *)
Inductive source := SList (l : list nat) | SSelf.
(** ModuleList.__setitem__ with a slice without step, container.py 80-99. The source is iterated after the deletion. *)
Definition setslice (v : cont) (start stop : option Z) (src : source) : res cont :=
  let items := objs KMod v in
  let remaining := match stop with Some _ => slice items stop None | None => [] end in
  let v := fold_left (fun v kx => ddel v (fst kx)) (slice items start None) v in
  let i := match start with Some i => i | None => 0%Z end in
  let l := match src with SList l => l | SSelf => iter KMod v end in
  let* (v, i) := add_new v i l in
  add_remaining v i remaining.
(** ModuleList.__delitem__, container.py 109-113 *)
Definition delslice (v : cont) (start stop : option Z) : res cont := setslice v start stop (SList []).
Definition delitem (v : cont) (i : Z) : res cont := setslice v (Some i) (Some (i + 1)%Z) (SList []).

(** ParameterList.__setitem__, container.py 214-216: [setattr(self, key, rf.Parameter)], i.e. the class *)
Definition parameter_class : attr := AOther 0.
Definition param_setitem (v : cont) (i : Z) (x : nat) : res cont :=
  let* key := index (map fst (objs KParam v)) i in
  Ok (dset v key parameter_class).
