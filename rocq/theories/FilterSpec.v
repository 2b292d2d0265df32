(** Vocabulary for C39. *)
From Coq Require Import QArith.
From Verif Require Import Base FilterModel.
Local Open Scope Z_scope.

Definition total (len : Z -> Z) (l : list Z) : Z := fold_right (fun i s => len i + s) 0 l.
Definition mean (len : Z -> Z) (l : list Z) : Q := (inject_Z (total len l) / inject_Z (Z.of_nat (length l)))%Q.
(** By length, and by index for equal lengths. *)
Definition shorter (len : Z -> Z) (i j : Z) : Prop := len i < len j \/ (len i = len j /\ i < j).
(** Some of the sequences, in the same order. *)
Definition subsequence (l l' : list Z) : Prop := exists p : Z -> bool, l = filter p l'.

(** The epochs of one configured range: from the first one (1 if None) up to the last one (no end if None or -1). *)
Definition range_epochs (r : option Z * option Z) (epoch : Z) : Prop :=
  match fst r with None => 1 <= epoch | Some s => s <= epoch end /\ match snd r with None => True | Some e => e = -1 \/ epoch <= e end.

(** A range given by two numbers, and the order of such ranges: by the first epoch, then by the last one as it is written (so -1 comes first). *)
Definition numeric (r : option Z * option Z) : Prop := exists s e, r = (Some s, Some e).
Definition range_le (a b : option Z * option Z) : Prop :=
  exists s e s' e', a = (Some s, Some e) /\ b = (Some s', Some e') /\ (s < s' \/ (s = s' /\ e <= e')).
(** The range starts at 1 or later, and does not end before it starts. *)
Definition valid_range (r : option Z * option Z) : Prop :=
  exists s e, r = (Some s, Some e) /\ 1 <= s /\ (e = -1 \/ s <= e).

(** The given ranges with their maxima, applied one after the other to the sequences [o] where they contain the epoch, give [out]. *)
Inductive filtered (ep : Z) (len : Z -> Z) : list ((option Z * option Z) * option Q) -> list Z -> list Z -> Prop :=
| filtered_end o : filtered ep len [] o o
| filtered_in r m l o o' out : range_epochs r ep -> filter_epoch m o len = Ok o' -> filtered ep len l o' out -> filtered ep len ((r, m) :: l) o out
| filtered_out r m l o out : ~ range_epochs r ep -> filtered ep len l o out -> filtered ep len ((r, m) :: l) o out.
