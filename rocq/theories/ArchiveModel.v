(* Sprint archives: writing feature caches, the file info table, reading entries and alignments.
   /repo/returnn/sprint/cache.py

   A file is its list of bytes, each a number from 0 to 255. struct.pack/unpack without a prefix use the native byte
   order and sizes; modelled is a little-endian machine with 4-byte int and 8-byte long long.
   A struct.error is [Err OtherException].
   Strings are their encoded bytes (the encoding itself, "ascii" or the one given, is not modelled).
   Floats are their bit patterns: numbers below 2^32 for float32, below 2^64 for float64. *)
From Coq Require Import List ZArith Lia Bool.
From Verif Require Import Base.
Import ListNotations.
Local Open Scope Z_scope.

Definition bytes := list Z.

Fixpoint name_eqb (a b : bytes) : bool :=
  match a, b with
  | [], [] => true
  | x :: a', y :: b' => (x =? y) && name_eqb a' b'
  | _, _ => false
  end.

(* the n bytes of z, least significant first; for a negative z this is its two's complement *)
Fixpoint le_bytes (n : nat) (z : Z) : bytes :=
  match n with
  | O => []
  | S n' => z mod 256 :: le_bytes n' (z / 256)
  end.

Fixpoint le_value (b : bytes) : Z :=
  match b with
  | [] => 0
  | x :: b' => x + 256 * le_value b'
  end.

(* struct.pack with a signed / an unsigned format of n bytes: struct.error if the value does not fit *)
Definition pack_signed (n : nat) (z : Z) : res bytes :=
  if (- 2 ^ (8 * Z.of_nat n - 1) <=? z) && (z <? 2 ^ (8 * Z.of_nat n - 1)) then Ok (le_bytes n z)
  else Err OtherException.

Definition pack_unsigned (n : nat) (z : Z) : res bytes :=
  if (0 <=? z) && (z <? 2 ^ (8 * Z.of_nat n)) then Ok (le_bytes n z) else Err OtherException.

(* cache.py 157-206: write_char, write_u32 (signed!), write_U32, write_u64 (signed), write_f32, write_f64 *)
Definition write_char := pack_signed 1.
Definition write_u32 := pack_signed 4.
Definition write_U32 := pack_unsigned 4.
Definition write_u64 := pack_signed 8.
Definition write_f32 := pack_unsigned 4.
Definition write_f64 := pack_unsigned 8.

(* A reader takes the bytes from the current file position to the end of the file. *)
(* struct.unpack of f.read(n): struct.error if the file ends before. *)
Definition read_n (n : nat) (f : bytes) : res (bytes * bytes) :=
  if Nat.ltb (length f) n then Err OtherException else Ok (firstn n f, skipn n f).

Definition read_unsigned (n : nat) (f : bytes) : res (Z * bytes) :=
  let* (b, f) := read_n n f in Ok (le_value b, f).

Definition read_signed (n : nat) (f : bytes) : res (Z * bytes) :=
  let* (b, f) := read_n n f in
  let z := le_value b in
  Ok (if z <? 2 ^ (8 * Z.of_nat n - 1) then z else z - 2 ^ (8 * Z.of_nat n), f).

(* cache.py 50-132: read_u32 (signed), read_U32, read_U8, read_u64 (signed), read_char, read_S16 (unsigned), read_f32 *)
Definition read_u32 := read_signed 4.
Definition read_U32 := read_unsigned 4.
Definition read_U8 := read_unsigned 1.
Definition read_u64 := read_signed 8.
Definition read_char := read_signed 1.
Definition read_S16 := read_unsigned 2.
Definition read_f32 := read_unsigned 4.

(* cache.py 71-86: read_packed_U32. Seven bits per byte, least significant first; the high bit says that more bytes
   follow. *)
Fixpoint read_packed_from (s : Z) (result : Z) (f : bytes) : res (Z * bytes) :=
  match f with
  | [] => Err OtherException
  | b :: f =>
    let result := Z.lor result (Z.shiftl (if Z.land b 128 =? 0 then b else Z.land b 127) s) in
    if Z.land b 128 =? 0 then Ok (result, f) else read_packed_from (s + 7) result f
  end.

Definition read_packed_U32 (f : bytes) : res (Z * bytes) := read_packed_from 0 0 f.

(* cache.py 100-113: read_bytes, read_str. A negative length is a struct.error (bad format). *)
Definition read_str (len : Z) (f : bytes) : res (bytes * bytes) :=
  if len <? 0 then Err OtherException else read_n (Z.to_nat len) f.

(* cache.py 134-154: read_v on a file, numpy.fromfile: items of b bytes, at most size many. At the end of the file
   it returns what is there, without an error. (The mmap branch is for compressed entries, not modelled.) *)
Fixpoint read_v (b : nat) (size : nat) (f : bytes) : list Z * bytes :=
  match size with
  | O => ([], f)
  | S size' =>
    match read_unsigned b f with
    | Ok (x, f) => let (xs, f) := read_v b size' f in (x :: xs, f)
    | Err _ => ([], [])
    end
  end.

(* cache.py 208-210: "SP_ARC1\0", the tags *)
Definition cache_header : bytes := [83; 80; 95; 65; 82; 67; 49; 0].
Definition start_recovery_tag : Z := 2857740885.   (* 0xAA55AA55 *)
Definition end_recovery_tag : Z := 1437226410.     (* 0x55AA55AA *)

(* cache.py 21-41: FileInfo; the index is not used anywhere *)
Record finfo := { fi_name : bytes; fi_pos : Z; fi_size : Z; fi_comp : Z }.

Definition table := list (bytes * finfo).

(* a dict: d.get(name); d[name] = v, where an existing key keeps its place *)
Fixpoint lookup {A} (name : bytes) (t : list (bytes * A)) : option A :=
  match t with
  | [] => None
  | (n, v) :: t => if name_eqb name n then Some v else lookup name t
  end.

Fixpoint update {A} (name : bytes) (v : A) (t : list (bytes * A)) : list (bytes * A) :=
  match t with
  | [] => [(name, v)]
  | (n, w) :: t => if name_eqb name n then (n, v) :: t else (n, w) :: update name v t
  end.

(* ---- writing ---- *)

(* the bytes written so far, and self.ft *)
Record writer := { w_out : bytes; w_ft : table }.

(* cache.py 212-237: __init__ for a file which does not exist *)
Definition new_archive : res writer :=
  let* c := write_char 1 in
  Ok {| w_out := cache_header ++ c; w_ft := [] |}.

(* append bytes to the file *)
Definition put (w : writer) (b : bytes) : writer := {| w_out := w_out w ++ b; w_ft := w_ft w |}.

(* several writes in a row, the first failing one stops *)
Fixpoint seq_writes (l : list (res bytes)) : res bytes :=
  match l with
  | [] => Ok []
  | b :: l => let* b := b in let* r := seq_writes l in Ok (b ++ r)
  end.

Definition zlen {A} (l : list A) : Z := Z.of_nat (length l).

(* "vector-f32", ".attribs" *)
Definition vector_f32 : bytes := [118; 101; 99; 116; 111; 114; 45; 102; 51; 50].
Definition dot_attribs : bytes := [46; 97; 116; 116; 114; 105; 98; 115].

(* cache.py 540-564: add_attributes, given the formatted data (the formatting of "%d" and "%.5f" is not modelled). *)
Definition add_attributes (w : writer) (filename : bytes) (data : bytes) : res writer :=
  let filename := filename ++ dot_attribs in
  let* a := write_U32 start_recovery_tag in
  let* b := write_u32 (zlen filename) in
  let w := put w (a ++ b ++ filename) in
  let pos := zlen (w_out w) in
  let size := zlen data in
  let* c := seq_writes [write_u32 size; write_u32 0; write_u32 0; Ok data; write_U32 end_recovery_tag] in
  let w := put w c in
  Ok {| w_out := w_out w;
        w_ft := update filename {| fi_name := filename; fi_pos := pos; fi_size := size; fi_comp := 0 |} (w_ft w) |}.

(* cache.py 528-533: one feature vector with its start and end time *)
Definition write_row (f : list Z) (t : Z * Z) : res bytes :=
  let* l := write_u32 (zlen f) in
  let* xs := seq_writes (map write_f32 f) in
  let* a := write_f64 (fst t) in
  let* b := write_f64 (snd t) in
  Ok (l ++ xs ++ a ++ b).

(* cache.py 502-538: add_feature_cache. [attr dim duration] is the formatted attributes string; duration is the bit
   pattern of times[-1][1]. The default duration 1 is an int there, here passed as [one].
   times[-1] of empty times is an IndexError. An error leaves a partial entry in the file, which is not modelled. *)
Definition add_feature_cache (attr : Z -> Z -> bytes) (one : Z) (w : writer)
    (filename : bytes) (features : list (list Z)) (times : list (Z * Z)) : res writer :=
  let* a := write_U32 start_recovery_tag in
  let* b := write_u32 (zlen filename) in
  let w := put w (a ++ b ++ filename) in
  let pos := zlen (w_out w) in
  let* (dim, size, duration) :=
    match features with
    | f0 :: _ =>
      let dim := zlen f0 in
      let size := 4 + 10 + 4 + zlen features * (4 + dim * 4 + 2 * 8) in
      match rev times with
      | t :: _ => Ok (dim, size, snd t)
      | [] => Err IndexError
      end
    | [] => Ok (0, 4 + 10 + 4, one)
    end in
  let* c := seq_writes [write_u32 size; write_u32 0; write_u32 0; write_u32 10; Ok vector_f32] in
  let w := put w c in
  let* _ := assert_ (Nat.eqb (length features) (length times)) in
  let* d := write_u32 (zlen features) in
  let* e := seq_writes (map (fun p => write_row (fst p) (snd p)) (combine features times)) in
  let w := put w (d ++ e) in
  let ft := update filename {| fi_name := filename; fi_pos := pos; fi_size := size; fi_comp := 0 |} (w_ft w) in
  let* g := write_U32 end_recovery_tag in
  add_attributes {| w_out := w_out (put w g); w_ft := ft |} filename (attr dim duration).

(* cache.py 270-285: write_file_info_table, called by finalize (245-249) *)
Definition write_info (fi : finfo) : res bytes :=
  seq_writes [write_u32 (zlen (fi_name fi)); Ok (fi_name fi); write_u64 (fi_pos fi);
              write_u32 (fi_size fi); write_u32 (fi_comp fi)].

Definition finalize (w : writer) : res bytes :=
  let pos := zlen (w_out w) in
  let* n := write_u32 (zlen (w_ft w)) in
  let* e := seq_writes (map (fun p => write_info (snd p)) (w_ft w)) in
  let* z := write_u64 0 in
  let* p := write_u64 pos in
  Ok (w_out w ++ n ++ e ++ z ++ p).

(* A whole run of the writer: a new archive, add_feature_cache for each entry, and [finalize]. Writing without the
   finalize is [write_entries]. *)
Record entry := { e_name : bytes; e_features : list (list Z); e_times : list (Z * Z) }.

Fixpoint add_all (attr : Z -> Z -> bytes) (one : Z) (w : writer) (es : list entry) : res writer :=
  match es with
  | [] => Ok w
  | e :: es =>
    let* w := add_feature_cache attr one w (e_name e) (e_features e) (e_times e) in add_all attr one w es
  end.

Definition write_entries (attr : Z -> Z -> bytes) (one : Z) (es : list entry) : res writer :=
  let* w := new_archive in add_all attr one w es.

Definition write_archive (attr : Z -> Z -> bytes) (one : Z) (es : list entry) : res bytes :=
  let* w := write_entries attr one es in finalize w.

(* ---- reading ---- *)

Record archive := { a_file : bytes; a_ft : table; a_short : list (bytes * bytes) }.

(* f.seek(pos) from the start; a negative position is an error, one behind the end is allowed *)
Definition seek (file : bytes) (pos : Z) : res bytes :=
  if pos <? 0 then Err OSError else Ok (skipn (Z.to_nat pos) file).

(* cache.py 251-268: read_file_info_table *)
Fixpoint read_infos (count : nat) (ft : table) (f : bytes) : res table :=
  match count with
  | O => Ok ft
  | S count' =>
    let* (len, f) := read_u32 f in
    let* (name, f) := read_str len f in
    let* (pos, f) := read_u64 f in
    let* (size, f) := read_u32 f in
    let* (comp, f) := read_u32 f in
    read_infos count' (update name {| fi_name := name; fi_pos := pos; fi_size := size; fi_comp := comp |} ft) f
  end.

Definition read_file_info_table (file : bytes) : res table :=
  if Nat.ltb (length file) 8 then Err OSError else
  let* (pos_count, _) := read_u64 (skipn (length file - 8) file) in
  let* f := seek file pos_count in
  let* (count, f) := read_u32 f in
  if count <=? 0 then Ok [] else read_infos (Z.to_nat count) [] f.

(* cache.py 287-313: scan_archive. A seek of [size] from the current position is an error if that is negative, and
   may go behind the end. The fuel stands for the loop (a read takes 4 bytes, but a negative size goes back, so it need
   not end). *)
Fixpoint scan_from (fuel : nat) (file : bytes) (at_ : Z) (ft : table) : res table :=
  match fuel with
  | O => Err OutOfFuel
  | S fuel' =>
    if at_ <? zlen file then
      let* f := seek file at_ in
      let* (tag, f) := read_U32 f in
      if negb (tag =? start_recovery_tag) then scan_from fuel' file (at_ + 4) ft
      else
        let* (len, f) := read_u32 f in
        let* (name, f) := read_str len f in
        let pos := at_ + 8 + len in
        let* (size, f) := read_u32 f in
        let* (comp, f) := read_u32 f in
        let* (_, f) := read_u32 f in
        let* f := seek file (pos + 12 + size) in
        let ft := update name {| fi_name := name; fi_pos := pos; fi_size := size; fi_comp := comp |} ft in
        let* _ := read_U32 f in
        scan_from fuel' file (pos + 12 + size + 4) ft
    else Ok ft
  end.

Definition scan_archive (file : bytes) : res table := scan_from (S (length file)) file 0 [].

(* os.path.basename: what comes after the last "/" *)
Fixpoint basename_from (acc : bytes) (n : bytes) : bytes :=
  match n with
  | [] => acc
  | c :: n => if c =? 47 then basename_from [] n else basename_from (acc ++ [c]) n
  end.

Definition basename (n : bytes) : bytes := basename_from [] n.

(* cache.py 234-237: the map from short names, if these are unique *)
Definition short_names (names : list bytes) : list (bytes * bytes) :=
  let m := fold_left (fun m n => update (basename n) n m) names [] in
  if Nat.ltb (length m) (length names) then [] else m.

(* cache.py 212-237: __init__ for an existing file. (The header is decoded as ascii, which fails with another
   exception if it is none.) *)
Definition open_archive (file : bytes) : res archive :=
  let* (h, f) := read_str (zlen cache_header) file in
  let* _ := assert_ (name_eqb h cache_header) in
  let* (flag, _) := read_char f in
  let* ft := (if negb (flag =? 0) then read_file_info_table file else scan_archive file) in
  Ok {| a_file := file; a_ft := ft; a_short := short_names (map fst ft) |}.

(* cache.py 239-243: file_list; 416-421: has_entry *)
Definition file_list (a : archive) : list bytes := map fst (a_ft a).

Definition is_some {A} (o : option A) : bool := match o with Some _ => true | None => false end.

Definition has_entry (a : archive) (filename : bytes) : bool := is_some (lookup filename (a_ft a)).

(* what _raw_read returns for the types "str", "feat", "align" / "align_raw". The weight of an alignment entry is 1 in
   the plain scheme; in the weighted one it is the number read (divided by 65535 for version 1). *)
Inductive weight := One | Frac16 (n : Z) | Float32 (bits : Z).

Definition align_item := (Z * Z * option Z * weight)%type.

Inductive content :=
| Str (s : bytes)
| Feat (times : list (list Z)) (data : list (list Z))
| Align (l : list align_item).

Inductive rtype := TStr | TFeat | TAlign | TAlignRaw.

(* cache.py 467-483: get_state. [n] is len(self.allophones); an empty list is an AssertionError. *)
Fixpoint get_state_loop (k : nat) (state : Z) (n : Z) (mix : Z) : Z * Z :=
  match k with
  | O => (mix, state - 1)
  | S k' => if n <=? mix then get_state_loop k' (state + 1) n (mix - 2 ^ 26) else (mix, state)
  end.

Definition get_state (n : Z) (mix : Z) : res (Z * Z) :=
  let* _ := assert_ (0 <? n) in
  let (mix, state) := get_state_loop 6 0 n mix in
  let* _ := assert_ (0 <=? mix) in
  Ok (mix, state).

Definition mix_state (raw : bool) (n : Z) (mix : Z) : res (Z * option Z) :=
  if raw then Ok (mix, None) else let* (m, s) := get_state n mix in Ok (m, Some s).

(* cache.py 362-371: n literal items *)
Fixpoint rle_literals (raw : bool) (na : Z) (n : nat) (time : Z) (f : bytes) : res (list align_item * Z * bytes) :=
  match n with
  | O => Ok ([], time, f)
  | S n' =>
    let* (mix, f) := read_u32 f in
    let* (mix, state) := mix_state raw na mix in
    let* (l, time', f) := rle_literals raw na n' (time + 1) f in
    Ok ((time, mix, state, One) :: l, time', f)
  end.

(* cache.py 372-381: the same item for n frames *)
Definition rle_run (n : nat) (time : Z) (mix : Z) (state : option Z) : list align_item :=
  map (fun i => (time + Z.of_nat i, mix, state, One)) (seq 0 n).

(* cache.py 355-385: the plain scheme. The fuel stands for the while loop; every round reads at least one byte. *)
Fixpoint read_rle (fuel : nat) (raw : bool) (na : Z) (size : Z) (time : Z) (acc : list align_item) (f : bytes)
    : res (list align_item) :=
  match fuel with
  | O => Err OutOfFuel
  | S fuel' =>
    if zlen acc <? size then
      let* (n, f) := read_char f in
      if 0 <? n then
        let* (l, time, f) := rle_literals raw na (Z.to_nat n) time f in
        read_rle fuel' raw na size time (acc ++ l) f
      else if n <? 0 then
        let* (mix, f) := read_u32 f in
        let* (mix, state) := mix_state raw na mix in
        read_rle fuel' raw na size (time - n) (acc ++ rle_run (Z.to_nat (- n)) time mix state) f
      else
        let* (time, f) := read_u32 f in
        read_rle fuel' raw na size time acc f
    else Ok acc
  end.

(* cache.py 399-410: the items of one frame in the weighted scheme. The state is looked up for "align_raw" too. *)
Fixpoint weighted_items (k : nat) (na : Z) (version : Z) (t : Z) (f : bytes) : res (list align_item * bytes) :=
  match k with
  | O => Ok ([], f)
  | S k' =>
    let* (emission, f) := read_packed_U32 f in
    let* (mix, state) := get_state na emission in
    let* (w, f) :=
      (if version =? 1 then let* (x, f) := read_S16 f in Ok (Frac16 x, f)
       else if version =? 2 then let* (x, f) := read_f32 f in Ok (Float32 x, f)
       else Err NotImplementedError) in
    let* (l, f) := weighted_items k' na version t f in
    Ok ((t, mix, Some state, w) :: l, f)
  end.

(* cache.py 386-412: the weighted scheme. `num_items /= 2` is a float division, then the loop counts down by 1 while
   the number is positive: for an odd number that is one round more than the integer half. *)
Fixpoint read_weighted (fuel : nat) (na : Z) (version : Z) (size : Z) (t : Z) (acc : list align_item) (f : bytes)
    : res (list align_item) :=
  match fuel with
  | O => Err OutOfFuel
  | S fuel' =>
    if zlen acc <? size then
      let* (num_items, f) := read_packed_U32 f in
      let* (t, f) := (if Z.land num_items 1 =? 0 then Ok (t, f) else read_packed_U32 f) in
      let* (l, f) := weighted_items (Z.to_nat ((num_items + 1) / 2)) na version t f in
      read_weighted fuel' na version size (t + 1) (acc ++ l) f
    else Ok acc
  end.

(* "flow-alignment", "ALIGNRLE", "AALPHRLE" *)
Definition flow_alignment : bytes := [102; 108; 111; 119; 45; 97; 108; 105; 103; 110; 109; 101; 110; 116].
Definition alignrle : bytes := [65; 76; 73; 71; 78; 82; 76; 69].
Definition aalphrle : bytes := [65; 65; 76; 80; 72; 82; 76; 69].

(* cache.py 336-343: the feature vectors *)
Fixpoint read_rows (count : nat) (f : bytes) : res (list (list Z) * list (list Z)) :=
  match count with
  | O => Ok ([], [])
  | S count' =>
    let* (size, f) := read_U32 f in
    let (x, f) := read_v 4 (Z.to_nat size) f in
    let (t, f) := read_v 8 2 f in
    let* (ts, xs) := read_rows count' f in
    Ok (t :: ts, x :: xs)
  end.

(* cache.py 315-414: _raw_read *)
Definition raw_read (na : Z) (size : Z) (typ : rtype) (f : bytes) : res content :=
  match typ with
  | TStr => let* (s, _) := read_str size f in Ok (Str s)
  | TFeat =>
    let* (type_len, f) := read_U32 f in
    let* (type_, f) := read_str type_len f in
    let* _ := assert_ (name_eqb type_ vector_f32) in
    let* (count, f) := read_U32 f in
    let* (ts, xs) := read_rows (Z.to_nat count) f in
    Ok (Feat ts xs)
  | _ =>
    let raw := match typ with TAlignRaw => true | _ => false end in
    let* (type_len, f) := read_U32 f in
    let* (type_, f) := read_str type_len f in
    let* _ := assert_ (name_eqb type_ flow_alignment) in
    let* (_, f) := read_u32 f in
    let* (h, f) := read_str 8 f in
    if name_eqb h alignrle || name_eqb h aalphrle then
      let* (size, f) := read_U32 f in
      if size <? 2 ^ 31 then
        let* l := read_rle (S (length f)) raw na size 0 [] f in Ok (Align l)
      else
        let version := Z.land size (2 ^ 31 - 1) in
        let* _ := assert_ (version <=? 2) in
        let* (size, f) := read_packed_U32 f in
        let* l := read_weighted (S (length f)) na version size 0 [] f in Ok (Align l)
    else Err OtherException
  end.

(* cache.py 423-465: read. A missing name is a KeyError; an entry of size 0 gives None. Compressed entries (zlib) are
   not modelled: [Err NotImplementedError]. *)
Definition resolve (short : list (bytes * bytes)) (known : bytes -> bool) (filename : bytes) : bytes :=
  if known filename then filename
  else match lookup filename short with Some n => n | None => filename end.

Definition read_entry (na : Z) (a : archive) (filename : bytes) (typ : rtype) : res (option content) :=
  let filename := resolve (a_short a) (has_entry a) filename in
  match lookup filename (a_ft a) with
  | None => Err KeyError
  | Some fi =>
    let* f := seek (a_file a) (fi_pos fi) in
    let* (size, f) := read_U32 f in
    let* (comp, f) := read_U32 f in
    let* (_, f) := read_U32 f in
    if size =? 0 then Ok None
    else if 0 <? comp then Err NotImplementedError
    else let* c := raw_read na (fi_size fi) typ f in Ok (Some c)
  end.

(* ---- bundles ---- *)

(* cache.py 567-652: FileArchiveBundle, given the archives in the order of add_archive (each with its own name, a
   second add of the same archive does nothing): files maps the entry names to the archives. *)
Record bundle := { b_files : list (bytes * archive); b_short : list (bytes * bytes) }.

Definition add_archive (b : bundle) (a : archive) : bundle :=
  {| b_files := fold_left (fun m n => update n a m) (file_list a) (b_files b);
     b_short := fold_left (fun m p => update (fst p) (snd p) m) (a_short a) (b_short b) |}.

Definition open_bundle (l : list archive) : bundle := fold_left add_archive l {| b_files := []; b_short := [] |}.

Definition bundle_list (b : bundle) : list bytes := map fst (b_files b).

Definition bundle_has (b : bundle) (filename : bytes) : bool := is_some (lookup filename (b_files b)).

Definition bundle_read (na : Z) (b : bundle) (filename : bytes) (typ : rtype) : res (option content) :=
  let filename := resolve (b_short b) (bundle_has b) filename in
  match lookup filename (b_files b) with
  | None => Err KeyError
  | Some a => read_entry na a filename typ
  end.
