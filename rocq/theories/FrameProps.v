(** C24: pickled objects through a stream. Model: FrameModel. Pickling itself is a parameter, with the one hypothesis that loading what was dumped gives the object back. *)
From Verif Require Import Base ListLemmas FrameModel FrameProofs.
Local Open Scope Z_scope.

(** All objects arrive in order, however the stream is cut into pieces; then there is an EOF. *)
Theorem C24_all_arrive : forall (Obj : Type) (dumps : Obj -> list Z) (loads : list Z -> option Obj),
  (forall o, loads (dumps o) = Some o) ->
  forall os bytes pieces n, write_all dumps os = Ok bytes -> (length os < n)%nat ->
  read_all loads n (mk_stream bytes pieces) = (os, EOFError).
Proof.
  intros Obj dumps loads Hp os bytes pieces n Hw Hn.
  destruct (read_all_prefix dumps loads Hp os bytes n (length bytes) (mk_stream bytes pieces) Hw Hn) as (j&bj&H1&H2&H3&H4&H5); [cbn [rest]; now rewrite firstn_all|].
  rewrite H1. f_equal. destruct (Nat.eq_dec j (length os)) as [->|Hne]; [apply firstn_all|]. specialize (H5 (length os) bytes ltac:(lia)). rewrite firstn_all in H5. specialize (H5 Hw). lia.
Qed.
Print Assumptions C24_all_arrive.

(** If the writer dies after any number of bytes, exactly the objects arrive which were written completely, and then there is an EOF: never a partial object, never another error, and no endless loop. *)
Theorem C24_closed_stream : forall (Obj : Type) (dumps : Obj -> list Z) (loads : list Z -> option Obj),
  (forall o, loads (dumps o) = Some o) ->
  forall os bytes k pieces n, write_all dumps os = Ok bytes -> (length os < n)%nat ->
  exists j complete, read_all loads n (mk_stream (firstn k bytes) pieces) = (firstn j os, EOFError) /\ (j <= length os)%nat /\
    write_all dumps (firstn j os) = Ok complete /\ (length complete <= k)%nat /\
    forall j' more, (j < j' <= length os)%nat -> write_all dumps (firstn j' os) = Ok more -> (k < length more)%nat.
Proof.
  intros Obj dumps loads Hp os bytes k pieces n Hw Hn.
  destruct (read_all_prefix dumps loads Hp os bytes n k (mk_stream (firstn k bytes) pieces) Hw Hn eq_refl) as (j&bj&H1&H2&H3&H4&H5).
  exists j, bj. split; [exact H1|]. split; [exact H2|]. split; [exact H3|]. split; [lia|exact H5].
Qed.
Print Assumptions C24_closed_stream.

Theorem C24_serialize : forall (Obj : Type) (dumps : Obj -> list Z) (loads : list Z -> option Obj),
  (forall o, loads (dumps o) = Some o) -> forall o data, serialize dumps o = Ok data -> deserialize loads data = Ok o.
Proof.
  intros Obj dumps loads Hp o data H. unfold deserialize. destruct (read_frame dumps loads Hp o data [] (mk_stream data [])) as (s'&H1&_); [exact H|cbn; now rewrite app_nil_r|]. rewrite H1. reflexivity.
Qed.
Print Assumptions C24_serialize.

(** An object is refused exactly if its pickle is 2 GiB or more. *)
Theorem C24_size_limit : forall (Obj : Type) (dumps : Obj -> list Z) o, dumps o <> [] ->
  ((exists b, write_pickled dumps o = Ok b) <-> Z.of_nat (length (dumps o)) < 2 ^ 31).
Proof.
  intros Obj dumps o Hne. assert (Hpos : 0 < Z.of_nat (length (dumps o))) by (destruct (dumps o); [congruence|cbn [length]; lia]).
  unfold write_pickled, assert_, pack_i. assert (E : (0 <? Z.of_nat (length (dumps o))) = true) by (apply Z.ltb_lt; lia). rewrite E. cbn [bind]. assert (E2 : (- 2 ^ 31 <=? Z.of_nat (length (dumps o))) = true) by (apply Z.leb_le; lia). rewrite E2. cbn [andb].
  destruct (Z.ltb_spec (Z.of_nat (length (dumps o))) (2 ^ 31)); cbn [bind]; split; try lia; [intros _; eauto|intros [b Hb]; discriminate].
Qed.
Print Assumptions C24_size_limit.

(** Objects here are non-empty byte lists (the first byte and the others), their own pickles. *)
Definition ex_dumps (o : Z * list Z) : list Z := fst o :: snd o.
Definition ex_loads (b : list Z) : option (Z * list Z) := match b with x :: l => Some (x, l) | [] => None end.
Example C24_pickle_ex : forall o, ex_loads (ex_dumps o) = Some o.
Proof. intros [x l]. reflexivity. Qed.
Example C24_write_ex : write_all ex_dumps [(7, []); (8, [9; 10])] = Ok [1; 0; 0; 0; 7; 3; 0; 0; 0; 8; 9; 10].
Proof. reflexivity. Qed.
Example C24_read_ex : read_all ex_loads 5 (mk_stream [1; 0; 0; 0; 7; 3; 0; 0; 0; 8; 9; 10] [1; 2; 1; 1; 3; 2; 1; 0]%nat) = ([(7, []); (8, [9; 10])], EOFError) /\
  read_all ex_loads 5 (mk_stream [1; 0; 0; 0; 7; 3; 0; 0; 0; 8; 9] [3]%nat) = ([(7, [])], EOFError).
Proof. split; reflexivity. Qed.
