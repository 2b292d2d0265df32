(** Model of sending pickled objects through a stream: /repo/returnn/util/basic.py:2637-2700.

    Bytes are numbers 0..255. Pickling is a parameter: [dumps] gives the bytes of an object, [loads] is [Unpickler.load]. Simplification: a write is complete (python's buffered writer), so the stream contains the concatenation of what was written, or a prefix of it if the writer dies. *)
From Verif Require Import Base.
Local Open Scope Z_scope.

(** A stream to read from: the bytes still to come until the end of file, and how many bytes each coming [read] may get at once (the pieces in which a pipe delivers). *)
Record stream := mk_stream { rest : list Z; pieces : list nat }.
(** [p.read(n)] for n > 0: between 1 and n bytes, nothing at the end of the file. *)
Definition pread (n : nat) (s : stream) : list Z * stream :=
  let k := match pieces s with [] => n | p :: _ => Nat.max 1 (Nat.min p n) end in
  (firstn k (rest s), mk_stream (skipn k (rest s)) (tl (pieces s))).

(** /repo/returnn/util/basic.py:2637-2652; [need] is [size - read_size]. *)
Fixpoint read_bytes (fuel : nat) (need : nat) (s : stream) : res (list Z * stream) :=
  match need with
  | O => Ok ([], s)
  | _ =>
      match fuel with
      | O => Err OutOfFuel
      | S fuel' =>
          let (d, s1) := pread need s in
          match d with
          | [] => Err EOFError
          | _ => let* rs := read_bytes fuel' (need - length d) s1 in Ok ((d ++ fst rs)%list, snd rs)
          end
      end
  end.

(** [struct.pack("<i", n)]: little endian, signed, 4 bytes; it raises [struct.error] outside of the range. *)
Definition pack_i (n : Z) : res (list Z) :=
  if (- 2 ^ 31 <=? n) && (n <? 2 ^ 31)
  then Ok [n mod 256; (n / 256) mod 256; (n / 65536) mod 256; (n / 16777216) mod 256]
  else Err OtherException.
(** [struct.unpack("<i", b)] *)
Definition unpack_i (b : list Z) : res Z :=
  match b with
  | [a; b; c; d] => let u := a + 256 * b + 65536 * c + 16777216 * d in Ok (if u <? 2 ^ 31 then u else u - 2 ^ 32)
  | _ => Err OtherException
  end.

Section Pickle.
Context {Obj : Type} (dumps : Obj -> list Z) (loads : list Z -> option Obj).

(** What is written: 2671-2683. On an error nothing was written. *)
Definition write_pickled (o : Obj) : res (list Z) :=
  let raw := dumps o in
  let* _ := assert_ (0 <? Z.of_nat (length raw)) in
  let* size := pack_i (Z.of_nat (length raw)) in
  Ok (size ++ raw)%list.
(** 2655-2668 *)
Definition read_pickled (s : stream) : res (Obj * stream) :=
  let* r := read_bytes 4 4 s in
  let* size := unpack_i (fst r) in
  let* _ := assert_ (0 <? size) in
  let* r2 := read_bytes (Z.to_nat size) (Z.to_nat size) (snd r) in
  match loads (fst r2) with Some o => Ok (o, snd r2) | None => Err OtherException end.
(** 2686-2700 *)
Definition serialize (o : Obj) : res (list Z) := write_pickled o.
Definition deserialize (data : list Z) : res Obj := let* r := read_pickled (mk_stream data []) in Ok (fst r).

(** A program that writes objects one after the other, and one that reads until an error. *)
Fixpoint write_all (os : list Obj) : res (list Z) :=
  match os with [] => Ok [] | o :: os' => let* a := write_pickled o in let* b := write_all os' in Ok (a ++ b)%list end.
Fixpoint read_all (fuel : nat) (s : stream) : list Obj * err :=
  match fuel with
  | O => ([], OutOfFuel)
  | S fuel' => match read_pickled s with Ok (o, s') => let (os, e) := read_all fuel' s' in (o :: os, e) | Err e => ([], e) end
  end.
End Pickle.
