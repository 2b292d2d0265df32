(* What a Sprint archive is expected to hold, independent of the readers and writers.
   From the model only the types are used (bytes, entry, content, weights, archive), and [basename]. *)
From Coq Require Import List ZArith Lia Bool.
From Verif Require Import Base ArchiveModel.
Import ListNotations.
Local Open Scope Z_scope.

(* ---- the contents of an archive of features ---- *)

(* the dimension and duration which go into the attributes *)
Definition entry_dim (e : entry) : Z := match e_features e with f :: _ => Z.of_nat (length f) | [] => 0 end.
Definition entry_duration (one : Z) (e : entry) : Z :=
  match e_features e with [] => one | _ => snd (last (e_times e) (0, 0)) end.

(* ".attribs" *)
Definition attribs_name (n : bytes) : bytes := n ++ [46; 97; 116; 116; 114; 105; 98; 115].

(* an entry stands for two files in the archive: its features and its attributes, in this order *)
Definition files_of (attr : Z -> Z -> bytes) (one : Z) (e : entry) : list (bytes * content) :=
  [ (e_name e, Feat (map (fun t => [fst t; snd t]) (e_times e)) (e_features e));
    (attribs_name (e_name e), Str (attr (entry_dim e) (entry_duration one e))) ].

Definition files (attr : Z -> Z -> bytes) (one : Z) (es : list entry) : list (bytes * content) :=
  flat_map (files_of attr one) es.

(* the type to read it with *)
Definition type_of (c : content) : rtype := match c with Str _ => TStr | Feat _ _ => TFeat | Align _ => TAlign end.

(* [c] is the last content written under this name *)
Definition latest (name : bytes) (c : content) (l : list (bytes * content)) : Prop :=
  exists l1 l2, l = l1 ++ (name, c) :: l2 /\ ~ In name (map fst l2).

(* the distinct names in the order of their first occurrence *)
Definition first_occurrences (l r : list bytes) : Prop :=
  NoDup r /\ (forall n, In n r <-> In n l) /\
  forall a b, In a r -> In b r ->
    (exists r1 r2 r3, r = r1 ++ a :: r2 ++ b :: r3) ->
    exists l1 l2, l = l1 ++ a :: l2 /\ ~ In a l1 /\ ~ In b l1.

(* the basenames of the entries are distinct *)
Definition unique_basenames (names : list bytes) : Prop := NoDup (map basename names).

(* ---- alignments ---- *)

(* a label is an allophone and a state; its number in the file *)
Definition label := (Z * Z)%type.
Definition label_code (l : label) : Z := fst l + snd l * 2 ^ 26.
Definition label_ok (na : Z) (l : label) : Prop := 0 <= fst l < na /\ 0 <= snd l < 6.

(* little-endian numbers, packed numbers (7 bits per byte) *)
Definition byte_of (z : Z) (i : nat) : Z := (z / 256 ^ Z.of_nat i) mod 256.
Definition u8 (z : Z) : bytes := [byte_of z 0].
Definition u16 (z : Z) : bytes := map (byte_of z) (seq 0 2).
Definition u32 (z : Z) : bytes := map (byte_of z) (seq 0 4).

Inductive packed : Z -> bytes -> Prop :=
| packed_last b : 0 <= b < 128 -> packed b [b]
| packed_more b z l : 0 <= b < 128 -> packed z l -> packed (b + 128 * z) (128 + b :: l).

(* the run-length encoding: one to 127 labels for one frame each, one label for 1 to 128 frames (stored as the negative
   count), or the time of the next frame *)
Inductive rle_item := Literals (l : list label) | Run (n : nat) (l : label) | Time (t : Z).

Definition rle_ok (na : Z) (i : rle_item) : Prop :=
  match i with
  | Literals l => (1 <= length l <= 127)%nat /\ Forall (label_ok na) l
  | Run n l => (1 <= n <= 128)%nat /\ label_ok na l
  | Time t => 0 <= t < 2 ^ 31
  end.

Definition rle_bytes (i : rle_item) : bytes :=
  match i with
  | Literals l => u8 (Z.of_nat (length l)) ++ flat_map (fun x => u32 (label_code x)) l
  | Run n l => u8 (256 - Z.of_nat n) ++ u32 (label_code l)
  | Time t => u8 0 ++ u32 t
  end.

(* the labels with their frames, starting at a time *)
Fixpoint rle_frames (time : Z) (l : list rle_item) : list (Z * label) :=
  match l with
  | [] => []
  | Literals x :: l =>
    map (fun p => (time + Z.of_nat (fst p), snd p)) (combine (seq 0 (length x)) x)
      ++ rle_frames (time + Z.of_nat (length x)) l
  | Run n x :: l => map (fun i => (time + Z.of_nat i, x)) (seq 0 n) ++ rle_frames (time + Z.of_nat n) l
  | Time t :: l => rle_frames t l
  end.

(* what is returned: the allophone and the state, or for "align_raw" the number *)
Definition shown (raw : bool) (p : Z * label) : align_item :=
  if raw then (fst p, label_code (snd p), None, One) else (fst p, fst (snd p), Some (snd (snd p)), One).

(* "flow-alignment", a flag, "ALIGNRLE" or "AALPHRLE" *)
Definition align_magic : bytes :=
  u32 14 ++ [102; 108; 111; 119; 45; 97; 108; 105; 103; 110; 109; 101; 110; 116].
Definition rle_magic (alph : bool) : bytes :=
  if alph then [65; 65; 76; 80; 72; 82; 76; 69] else [65; 76; 73; 71; 78; 82; 76; 69].

(* the weighted scheme: for each frame a packed number, its lowest bit says whether the time follows, the rest is the
   number of items; then the items *)
Definition weight_ok (version : Z) (w : weight) : Prop :=
  match w with
  | One => False
  | Frac16 x => version = 1 /\ 0 <= x < 2 ^ 16
  | Float32 x => version = 2 /\ 0 <= x < 2 ^ 32
  end.
Definition weight_bytes (w : weight) : bytes :=
  match w with One => [] | Frac16 x => u16 x | Float32 x => u32 x end.

Record frame := { fr_time : option Z; fr_items : list (label * weight) }.

Inductive item_enc : label * weight -> bytes -> Prop :=
| item_enc_intro l w b : packed (label_code l) b -> item_enc (l, w) (b ++ weight_bytes w).

Inductive frame_enc : frame -> bytes -> Prop :=
| frame_enc_none items b bs :
    packed (2 * Z.of_nat (length items)) b -> Forall2 item_enc items bs ->
    frame_enc {| fr_time := None; fr_items := items |} (b ++ concat bs)
| frame_enc_time t items b c bs :
    packed (2 * Z.of_nat (length items) + 1) b -> packed t c -> Forall2 item_enc items bs ->
    frame_enc {| fr_time := Some t; fr_items := items |} (b ++ c ++ concat bs).

Definition frame_ok (na version : Z) (f : frame) : Prop :=
  Forall (fun p => label_ok na (fst p) /\ weight_ok version (snd p)) (fr_items f).

Fixpoint weighted_frames (t : Z) (l : list frame) : list align_item :=
  match l with
  | [] => []
  | f :: l =>
    let t := match fr_time f with Some t => t | None => t end in
    map (fun p => (t, fst (fst p), Some (snd (fst p)), snd p)) (fr_items f) ++ weighted_frames (t + 1) l
  end.

(* the archive has an entry of this name, with these bytes (and whatever follows in the file) *)
Definition stored (a : archive) (name : bytes) (payload : bytes) : Prop :=
  NoDup (map fst (a_ft a)) /\
  exists fi pre size check rest, In (name, fi) (a_ft a) /\ fi_pos fi = Z.of_nat (length pre) /\
    0 < size < 2 ^ 32 /\ 0 <= check < 2 ^ 32 /\
    a_file a = pre ++ u32 size ++ u32 0 ++ u32 check ++ payload ++ rest.

(* ---- bundles ---- *)

(* the last of the archives which has the entry *)
Definition last_with (name : bytes) (a : archive) (l : list archive) : Prop :=
  exists l1 l2, l = l1 ++ a :: l2 /\ In name (map fst (a_ft a)) /\
    forall b, In b l2 -> ~ In name (map fst (a_ft b)).
