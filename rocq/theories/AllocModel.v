(** Model of the cache of HDF datasets: datasets/cached.py ([CachedDataset]) and datasets/hdf.py ([_load_seqs]) with the cache
    switched on ([cache_byte_size] not 0).

    Simplifications: only the input data (not the targets, which have one array of fixed size per key); [window] is 1;
    [shuffle_frames_of_nseqs] is 0; [sample] is true for all sequences; all files are read in the order of the
    selection. *)
From Verif Require Import Base.

Section Model.
Context {F : Type}.
Variable zero : F.
(** [num_seqs], the frames of the sequence with the given index in [_seq_index], [_index_map]. *)
Variable N : nat.
Variable data : nat -> list F.
Variable imap : nat -> nat.

(** [_seq_start[i][0]], cached.py 178-184. *)
Fixpoint seq_start (i : nat) : nat := match i with O => O | S i => seq_start i + length (data i) end.

(** An entry of [alloc_intervals]: start and end of the range of sequences, and the frames. *)
Definition interval := (nat * nat * list F)%type.
Definition i_start (x : interval) : nat := fst (fst x).
Definition i_end (x : interval) : nat := snd (fst x).
Definition i_data (x : interval) : list F := snd x.

(** [_init_alloc_intervals], cached.py 157-172. *)
Definition init_alloc : list interval := [(0, 0, [zero]); (N, N, [zero])].

(** [alloc_interval_index], cached.py 313-337: binary search; [None] is -1. *)
Fixpoint search (fuel : nat) (al : list interval) (ids s e : nat) : res (option nat) :=
  match fuel with
  | O => Err OutOfFuel
  | S fuel =>
      if (s <? e)%nat then
        let i := ((s + e) / 2)%nat in
        let* x := pyget al i in
        if (i_start x <=? ids)%nat && (ids <? i_end x)%nat then Ok (Some i)
        else if (i_start x <=? ids)%nat && (i_end x <=? ids)%nat then
          if (s =? i)%nat then Ok None else search fuel al ids i e
        else if (ids <? i_start x)%nat then
          if (e =? i)%nat then Ok None else search fuel al ids s i
        else Err AssertionError
      else Ok None
  end.
Definition alloc_interval_index (al : list interval) (ids : nat) : res (option nat) :=
  search (S (length al)) al ids 0 (length al).

(** [list.insert] and [del] *)
Definition insert_at (i : nat) (x : interval) (al : list interval) : list interval := firstn i al ++ x :: skipn i al.
Definition del_at (i : nat) (al : list interval) : list interval := firstn i al ++ skipn (S i) al.

(** [_insert_alloc_interval], cached.py 339-426. The only caller does not set [merge], so only the last case is left. The
    number that the caller adds to its index comes with the list. *)
Definition insert_one (pos : nat) (v0 v1 : nat) (al : list interval) : list interval * Z :=
  if (v0 =? v1)%nat then (al, 0%Z)
  else (insert_at (S pos) (v0, v1, repeat zero (seq_start v1 - seq_start v0)) al, 1%Z).

(** [_remove_alloc_interval], cached.py 428-459. *)
Definition remove_one (pos : nat) (v0 v1 : nat) (al : list interval) : res (list interval * Z) :=
  let* x := pyget al pos in
  let ci := i_start x in
  let ni := i_end x in
  let xi := i_data x in
  if (v0 =? ci)%nat && (v1 =? ni)%nat then Ok (del_at pos al, (-1)%Z)
  else if (v0 =? ci)%nat then
    Ok (del_at (S pos) (insert_at pos (v1, ni, skipn (seq_start v1 - seq_start ci) xi) al), 0%Z)
  else if (v1 =? ni)%nat then
    Ok (del_at (S pos) (insert_at pos (ci, v0, firstn (seq_start v0 - seq_start ci) xi) al), 0%Z)
  else
    Ok (del_at (S (S pos)) (insert_at pos (ci, v0, firstn (seq_start v0 - seq_start ci) xi)
          (insert_at pos (v1, ni, skipn (seq_start v1 - seq_start ci) xi) al)), 1%Z).

Definition modify (invert : bool) (pos v0 v1 : nat) (al : list interval) : res (list interval * Z) :=
  if invert then Ok (insert_one pos v0 v1 al) else remove_one pos v0 v1 al.

(** The loop of [_modify_alloc_intervals], cached.py 477-496. [i += modify(...)] and [i += 1] in one. *)
Definition range (a b : nat) : list nat := seq a (b - a).
Definition advance (i : nat) (d : Z) : nat := Z.to_nat (Z.of_nat i + d + 1).
Fixpoint modify_loop (fuel : nat) (invert : bool) (start end_ i : nat) (al : list interval) (sel : list nat) : res (list interval * list nat) :=
  match fuel with
  | O => Err OutOfFuel
  | S fuel =>
      if (i <? length al - (if invert then 1 else 0))%nat then
        let* xn := pyget al (if invert then S i else i) in
        let ni := if invert then i_start xn else i_end xn in
        let* xc := pyget al i in
        let ci := if invert then i_end xc else i_start xc in
        let* _ := assert_ (ci <=? ni)%nat in
        let flag0 := (ci <=? start)%nat && (start <? ni)%nat in
        let flag1 := (ci <? end_)%nat && (end_ <=? ni)%nat in
        let flag2 := ((ci <? start)%nat && (ni <=? start)%nat) || ((end_ <=? ci)%nat && (end_ <? ni)%nat) in
        if negb flag0 && negb flag1 then
          if flag2 then modify_loop fuel invert start end_ (S i) al sel
          else
            let* (al', d) := modify invert i ci ni al in
            modify_loop fuel invert start end_ (advance i d) al' (sel ++ range ci ni)
        else if flag1 then
          let v0 := if flag0 then start else ci in
          let* (al', _) := modify invert i v0 end_ al in
          Ok (al', sel ++ range v0 end_)
        else
          let* (al', d) := modify invert i start ni al in
          modify_loop fuel invert start end_ (advance i d) al' (sel ++ range start ni)
      else Ok (al, sel)
  end.
(** [_modify_alloc_intervals], cached.py 461-508. [start == end] returns [None]; the callers here have [start < end]. *)
Definition modify_alloc_intervals (invert : bool) (start end_ : nat) (al : list interval) : res (list interval * list nat) :=
  if (start =? end_)%nat then Ok (al, [])
  else
    let* _ := assert_ (start <? end_)%nat in
    let* (al1, sel) := modify_loop (S (length al)) invert start end_ 0 al [] in
    let* x0 := pyget al1 0 in
    let al2 := if (i_start x0 =? 0)%nat then al1 else (0, 0, [zero]) :: al1 in
    let* xl := pyget al2 (length al2 - 1) in
    let al3 := if (i_end xl =? N)%nat then al2 else al2 ++ [(N, N, [zero])] in
    Ok (al3, sel).
(** cached.py 510-514 *)
Definition insert_alloc_interval := modify_alloc_intervals true.
Definition remove_alloc_interval := modify_alloc_intervals false.

(** [_set_alloc_intervals_data], cached.py 299-312: the slice assignment needs as many frames in the interval. *)
Definition set_data (j : nat) (al : list interval) : res (list interval) :=
  let* o := alloc_interval_index al j in
  match o with
  | None => Err AssertionError
  | Some k =>
      let* x := pyget al k in
      let off := (seq_start j - seq_start (i_start x))%nat in
      let d := data j in
      if (off + length d <=? length (i_data x))%nat then
        Ok (firstn k al ++ (i_start x, i_end x, firstn off (i_data x) ++ d ++ skipn (off + length d) (i_data x)) :: skipn (S k) al)
      else Err ValueError
  end.

(** [get_input_data], cached.py 606-615. *)
Definition get_input_data (al : list interval) (sorted_seq_idx : nat) : res (list F) :=
  let seq_idx := imap sorted_seq_idx in
  let* o := alloc_interval_index al seq_idx in
  match o with
  | None => Err AssertionError
  | Some k =>
      let* x := pyget al k in
      let* _ := assert_ (seq_start (i_start x) <=? seq_start seq_idx)%nat in
      let off := (seq_start seq_idx - seq_start (i_start x))%nat in
      let l := length (data (imap sorted_seq_idx)) in
      let* _ := assert_ (off + l <=? length (i_data x))%nat in
      Ok (firstn l (skipn off (i_data x)))
  end.

(** ** The cache *)
Record cache := { k_alloc : list interval; k_preload : list nat; k_preload_end : nat; k_free : nat; k_at_start : nat }.
Definition set_alloc (st : cache) (al : list interval) (pre : list nat) : cache :=
  {| k_alloc := al; k_preload := pre; k_preload_end := k_preload_end st; k_free := k_free st; k_at_start := k_at_start st |}.
Definition mem (j : nat) (l : list nat) : bool := existsb (Nat.eqb j) l.

(** [is_cached] without blocking, cached.py 544-561. *)
Definition is_cached (st : cache) (start end_ : nat) : bool :=
  (start =? end_)%nat || forallb (fun j => mem j (k_preload st)) (range start end_).

(** [delete], cached.py 516-538. [nframes] is [None]: [_load_seqs_with_cache] is always called with [clear]. *)
Fixpoint delete_loop (fuel : nat) (i deleted : nat) (st : cache) : res (cache * nat) :=
  match fuel with
  | O => Err OutOfFuel
  | S fuel =>
      if (i <? length (k_alloc st))%nat then
        let* ai := pyget (k_alloc st) i in
        if (k_at_start st <? i_end ai)%nat && (i_start ai <? i_end ai)%nat then
          let* (al, removed) := remove_alloc_interval (Nat.max (i_start ai) (k_at_start st)) (i_end ai) (k_alloc st) in
          let pre := filter (fun j => negb (mem j removed)) (k_preload st) in
          delete_loop fuel i (deleted + list_sum (map (fun j => length (data j)) removed)) (set_alloc st al pre)
        else delete_loop fuel (S i) deleted st
      else Ok (st, deleted)
  end.
Definition delete (st : cache) : res (cache * nat) := delete_loop (2 * length (k_alloc st) + 1) 0 0 st.

(** [HDFDataset._load_seqs], hdf.py 225-289. *)
Fixpoint fill (js : list nat) (al : list interval) (pre : list nat) : res (list interval * list nat) :=
  match js with
  | [] => Ok (al, pre)
  | j :: js => let* al' := set_data j al in fill js al' (pre ++ [j])
  end.
Definition others (start end_ : nat) (sel : list nat) : list nat := filter (fun j => negb (mem j sel)) (range start end_).
Definition load_now (start end_ : nat) (st : cache) : res cache :=
  let* _ := assert_ (start <? N)%nat in
  let* _ := assert_ (end_ <=? N)%nat in
  let* (al, sel) := insert_alloc_interval start end_ (k_alloc st) in
  let* _ := assert_ (length sel <=? end_ - start)%nat in
  let* (al', pre) := fill sel al (k_preload st ++ others start end_ sel) in
  Ok (set_alloc st al' pre).
(** [_preload_seqs], cached.py 264-267, with [Dataset.load_seqs], basic.py 440-460. *)
Definition preload_seqs (start end_ : nat) (st : cache) : res cache :=
  let* st1 := if is_cached st start end_ then Ok st else load_now start end_ st in
  Ok {| k_alloc := k_alloc st1; k_preload := k_preload st1; k_preload_end := k_at_start st1; k_free := k_free st1; k_at_start := k_at_start st1 |}.
(** Which further sequences are loaded in advance, cached.py 254-260. *)
Fixpoint extend (fuel end_ free : nat) : nat * nat :=
  match fuel with
  | O => (end_, free)
  | S fuel =>
      if (end_ <? N)%nat then
        let needed := length (data (imap end_)) in
        if (free <? needed)%nat then (end_, free) else extend fuel (S end_) (free - needed)
      else (end_, free)
  end.
(** [_load_seqs_with_cache] up to the start of the thread, cached.py 241-262 ([clear] is always true): the end of the range for
    the thread. *)
Definition prepare_load (start end_ : nat) (st : cache) : res (cache * nat) :=
  let* (st1, deleted) := delete st in
  let (e, free) := extend N end_ (k_free st1 + deleted) in
  Ok ({| k_alloc := k_alloc st1; k_preload := k_preload st1; k_preload_end := e; k_free := free; k_at_start := k_at_start st1 |}, e).
(** [load_seqs], cached.py 214-234, if the thread ends before anything else happens. *)
Definition load_seqs (start end_ : nat) (st : cache) : res cache :=
  let* _ := assert_ (start <=? end_)%nat in
  if is_cached st start end_ then Ok st
  else
    let* (st1, e) := prepare_load start end_ st in
    preload_seqs start e st1.

(** [_init_start_cache], cached.py 186-212: the longest prefix that fits, [limit] in frames. *)
Fixpoint start_cache (fuel i limit used : nat) : nat :=
  match fuel with
  | O => i
  | S fuel =>
      if (i <? N)%nat && (used + length (data (imap i)) <=? limit)%nat then start_cache fuel (S i) limit (used + length (data (imap i))) else i
  end.
Definition fresh (free c : nat) : cache := {| k_alloc := init_alloc; k_preload := []; k_preload_end := c; k_free := free; k_at_start := c |}.
(** The begin of an epoch with a new order, up to the end of the thread for the start cache. *)
Definition init_cache (limit free : nat) : res cache :=
  let c := start_cache N 0 limit 0 in
  if (0 <? c)%nat then preload_seqs 0 c (fresh free c) else Ok (fresh free c).

(** ** With threads *)
(** What a background thread does next: [_preload_seqs] from the begin; from [preload_set |= ...] on (hdf.py 245); from the data of
    the next sequence on; from [preload_set.add] on (hdf.py 287-288); the end (cached.py 267). *)
Inductive task := TLoad (start end_ : nat) | TMark (js sel : list nat) | TFill (sel : list nat) | TAdd (j : nat) (sel : list nat) | TEnd | TDone | TDead.
Definition task_step (t : task) (st : cache) : option (task * cache) :=
  match t with
  | TLoad s e =>
      if is_cached st s e then Some (TEnd, st)
      else match insert_alloc_interval s e (k_alloc st) with
           | Ok (al, sel) => Some (TMark (others s e sel) sel, set_alloc st al (k_preload st))
           | Err _ => Some (TDead, st)
           end
  | TMark js sel => Some (TFill sel, set_alloc st (k_alloc st) (k_preload st ++ js))
  | TFill [] => Some (TEnd, st)
  | TFill (j :: sel) =>
      match set_data j (k_alloc st) with Ok al => Some (TAdd j sel, set_alloc st al (k_preload st)) | Err _ => Some (TDead, st) end
  | TAdd j sel => Some (TFill sel, set_alloc st (k_alloc st) (k_preload st ++ [j]))
  | TEnd => Some (TDone, {| k_alloc := k_alloc st; k_preload := k_preload st; k_preload_end := k_at_start st; k_free := k_free st; k_at_start := k_at_start st |})
  | TDone | TDead => None
  end.
(** The main thread in [load_seqs(start, end)]: at the begin; in the blocking [is_cached] (cached.py 234, 557-561); after it. *)
Inductive main_pc := MLoad (start end_ : nat) | MWait (start end_ : nat) | MReturned (start end_ : nat).
Definition main_step (m : main_pc) (ts : list task) (st : cache) : option (main_pc * list task * cache) :=
  match m with
  | MLoad s e =>
      if is_cached st s e then Some (MReturned s e, ts, st)
      else match prepare_load s e st with
           | Ok (st1, e') => Some (MWait s e, ts ++ [TLoad s e'], st1)
           | Err _ => None
           end
  | MWait s e =>
      if (e <=? k_preload_end st)%nat then if is_cached st s e then Some (MReturned s e, ts, st) else None else Some (MReturned s e, ts, st)
  | MReturned _ _ => None
  end.
Inductive pstep : main_pc * list task * cache -> main_pc * list task * cache -> Prop :=
| pstep_main : forall m ts st m' ts' st', main_step m ts st = Some (m', ts', st') -> pstep (m, ts, st) (m', ts', st')
| pstep_thread : forall m ts st k t t' st', nth_error ts k = Some t -> task_step t st = Some (t', st') ->
    pstep (m, ts, st) (m, firstn k ts ++ t' :: skipn (S k) ts, st').
Inductive psteps : main_pc * list task * cache -> main_pc * list task * cache -> Prop :=
| psteps_refl : forall x, psteps x x
| psteps_cons : forall x y z, pstep x y -> psteps y z -> psteps x z.
End Model.

(** ** The dataset *)
Section Order.
Context {F : Type}.
Variable zero : F.
(** The frames of each sequence of the files. *)
Variable corpus : nat -> list F.
(** The number of frames that fit in the start cache. *)
Variable limit : nat.

(** [_seq_index], [_index_map] and the cache. *)
Record dataset := { d_index : list nat; d_map : list nat; d_cache : @cache F }.
(** After [initialize], cached.py 54-68, 20-46: [init_seq_order] without an epoch gives the empty order (basic.py 783-789, 524-527).
    [free]: [cache_num_frames_free]. *)
Definition new_dataset (free : nat) : dataset :=
  {| d_index := []; d_map := []; d_cache := {| k_alloc := []; k_preload := []; k_preload_end := 0; k_free := free; k_at_start := 0 |} |}.
Definition frames_of (index : list nat) (j : nat) : list F := corpus (nth j index 0%nat).
Definition map_of (m : list nat) (i : nat) : nat := nth i m 0%nat.
(** [_seq_index_inv], cached.py 124-127: the last index of a sequence. *)
Fixpoint index_inv (index : list nat) (i0 : nat) (r : nat) : option nat :=
  match index with
  | [] => None
  | r' :: index => match index_inv index (S i0) r with Some i => Some i | None => if (r =? r')%nat then Some i0 else None end
  end.
Fixpoint same_order (a b : list nat) : bool :=
  match a, b with [], [] => true | x :: a, y :: b => (x =? y)%nat && same_order a b | _, _ => false end.
(** [init_seq_order] with an epoch, cached.py 78-131; the order is a parameter. The new number of free frames comes from the old
    cache: only [initialize] sets it (cached.py 68). The thread for the start cache runs to its end. *)
Definition init_order (order : list nat) (d : dataset) : res dataset :=
  if same_order order (d_index d) then Ok {| d_index := d_index d; d_map := seq 0 (length order); d_cache := d_cache d |}
  else if negb (k_at_start (d_cache d) =? length order)%nat then
    let* _ := assert_ (0 <? length order)%nat in
    let* st := init_cache zero (length order) (frames_of order) (fun i => i) limit (k_free (d_cache d)) in
    Ok {| d_index := order; d_map := seq 0 (length order); d_cache := st |}
  else
    let* m := mapM (fun r => match index_inv (d_index d) 0 r with Some i => Ok i | None => Err KeyError end) order in
    Ok {| d_index := d_index d; d_map := m; d_cache := d_cache d |}.
Definition d_load (start end_ : nat) (d : dataset) : res dataset :=
  let* st := load_seqs zero (length (d_map d)) (frames_of (d_index d)) (map_of (d_map d)) start end_ (d_cache d) in
  Ok {| d_index := d_index d; d_map := d_map d; d_cache := st |}.
Definition d_get (d : dataset) (i : nat) : res (list F) :=
  get_input_data (frames_of (d_index d)) (map_of (d_map d)) (k_alloc (d_cache d)) i.
End Order.
