(** Crash-safe saving of settings: common/file_reader.h:466-679 (CheckSummer,
    SafeFileHeader, FileValidator, FileSelector, BufferedFileWriter) and
    common/config_file.h:164-186 (WriteToDir), 226-255 (ReadINIFromDir).
    Modelled with PROFFIEOS_BUFFER_WRITES and KEEP_SAVEFILES_WHEN_PROGRAMMING off, as
    in the released configuration. *)
From Coq Require Import ZArith List Bool.
From Verif Require Import StrModel FileModel ConfigModel.
Import ListNotations.
Open Scope Z_scope.

(** file_reader.h:466-476 CheckSummer::Write (uint32_t arithmetic). *)
Definition cksum_step (tmp b : Z) : Z := (tmp * 997 + b) mod 2 ^ 32.
Definition checksum (data : list Z) : Z := fold_left cksum_step data 0.

(** A file on the card: its length and its bytes.  Simplification: the file system
    under OpenRW / Write stores bytes one at a time, in order, and the directory entry's
    length follows the last byte; a power loss can fall between any two bytes. *)
Record file := File { flen : Z; at_ : Z -> Z }.
Definition disk_file := option file.
Definition size (o : disk_file) : Z := match o with Some f => flen f | None => 0 end.
(** A byte, 0 past the end (FileValidator clears its buffer before reading,
    file_reader.h:511). *)
Definition get (o : disk_file) (i : Z) : Z :=
  match o with
  | Some f => if (0 <=? i) && (i <? flen f) then at_ f i else 0
  | None => 0
  end.

(** What the writer does to the card, one byte at a time. *)
Inductive op := Create | Put (pos b : Z).
Definition do_op (o : disk_file) (p : op) : disk_file :=
  match p, o with
  | Create, None => Some (File 0 (fun _ => 0))
  | Create, Some _ => o
  | Put pos b, Some f =>
    Some (File (Z.max (flen f) (pos + 1))
               (fun i => if i =? pos then b else if i <? flen f then at_ f i else 0))
  | Put _ _, None => None
  end.
Fixpoint puts (pos : Z) (l : list Z) : list op :=
  match l with [] => [] | b :: l => Put pos b :: puts (pos + 1) l end.

(** file_reader.h:654 Write32 on the (little-endian) processor. *)
Definition le32 (n : Z) : list Z := [n mod 256; (n / 256) mod 256; (n / 65536) mod 256; (n / 16777216) mod 256].
Definition magic : Z := 4280179454. (* 0xFF1E5AFE *)
(** file_reader.h:478-489, 613-629 Close: the header, written twice, then the install time. *)
Definition header_half (ck it len : Z) : list Z := le32 magic ++ le32 ck ++ le32 it ++ le32 len.
Definition header (install : list Z) (ck it len : Z) : list Z :=
  header_half ck it len ++ header_half ck it len ++ install.

(** file_reader.h:580-599 (constructor: preallocation from offset 0, then Seek(512)),
    631-653 (Write) and 613-629 (Close): all bytes one save stores, in order. *)
Definition save_ops (maxsz : Z) (install : list Z) (o : disk_file) (text : list Z) (it : Z) : list op :=
  (match o with None => [Create] | Some _ => [] end) ++
  (if size o <? maxsz then puts 0 (repeat 0 (Z.to_nat (512 * ((maxsz - size o + 511) / 512)))) else []) ++
  puts 512 text ++
  puts 0 (header install (checksum text) it (Z.of_nat (length text))).

Definition g32 (o : disk_file) (p : Z) : Z :=
  get o p + 256 * get o (p + 1) + 65536 * get o (p + 2) + 16777216 * get o (p + 3).
(** uint32_t to int32_t *)
Definition s32 (n : Z) : Z := if n <? 2 ^ 31 then n else n - 2 ^ 32.
Definition upto (n : nat) : list Z := map Z.of_nat (seq 0 n).

(** file_reader.h:503-529 FileValidator and validHeader: both header copies agree, the
    install time is this build's, and the magic number is right. *)
Definition validHeader (install : list Z) (o : disk_file) : bool :=
  forallb (fun i => get o i =? get o (16 + i)) (upto 16) &&
  forallb (fun x => get o (32 + fst x) =? snd x) (combine (upto (length install)) install) &&
  (g32 o 0 =? magic).
(** file_reader.h:531-533 *)
Definition iteration (install : list Z) (o : disk_file) : Z :=
  if validHeader install o then s32 (g32 o 8) else 0.
(** file_reader.h:535-549.  [stale] is what the uninitialised buffer holds where the
    file ends early. *)
Definition validateChecksum (install : list Z) (stale : Z -> Z) (o : disk_file) : bool :=
  validHeader install o &&
  (checksum (map (fun i => if 512 + i <? size o then get o (512 + i) else stale i)
                 (upto (Z.to_nat (s32 (g32 o 12))))) =? g32 o 4).

Definition bytes_from (o : disk_file) (p : Z) : list Z :=
  map (fun i => get o (p + i)) (upto (Z.to_nat (size o - p))).

Inductive ext := CONFIG_UNKNOWN | CONFIG_INI | CONFIG_TMP.
Record disk := Disk { ini : disk_file; tmp : disk_file }.
(** config_file.h:176-177 *)
Record ram := Ram { read_from_ext_ : ext; iteration_ : Z }.

Section Protocol.
  Variables (maxsz : Z) (install : list Z) (vs : vars) (stale : Z -> Z).

  (** config_file.h:226-234; [None] is "false". *)
  Definition TryValidator (x : ext) (o : disk_file) : option (list dec * ram) :=
    if validateChecksum install stale o then
      let (st, vals) := Read install vs (bytes_from o 512) (Defaults vs) in
      Some (vals, match st with
                  | READ_FAIL => Ram CONFIG_UNKNOWN 0
                  | _ => Ram x (iteration install o)
                  end)
    else None.
  (** config_file.h:236-244 *)
  Definition TryPlain (x : ext) (o : disk_file) : option (list dec * ram) :=
    if maxsz <=? size o then None
    else match o with
    | None => Some (Defaults vs, Ram CONFIG_UNKNOWN 0)
    | Some _ =>
      let (st, vals) := Read install vs (bytes_from o 0) (Defaults vs) in
      Some (vals, match st with READ_END => Ram x 1 | _ => Ram CONFIG_UNKNOWN 0 end)
    end.
  Definition orelse {A} (a b : option A) : option A := match a with Some _ => a | None => b end.
  (** config_file.h:245-255 ReadINIFromDir at power-on (file_reader.h:553-568 FileSelector
      picks the order): the values the settings end up with, and the RAM state. *)
  Definition boot (d : disk) : list dec * ram :=
    let '(ax, a, bx, b) :=
      if iteration install (ini d) <? iteration install (tmp d)
      then (CONFIG_TMP, tmp d, CONFIG_INI, ini d) else (CONFIG_INI, ini d, CONFIG_TMP, tmp d) in
    match orelse (orelse (TryValidator ax a) (TryValidator bx b))
                 (orelse (TryPlain CONFIG_INI (ini d)) (TryPlain CONFIG_TMP (tmp d))) with
    | Some r => r
    | None => (Defaults vs, Ram CONFIG_UNKNOWN 0)
    end.

  (** config_file.h:164-186 WriteToDir, stopped with [missing] bytes still unstored
      (missing = 0: completed). *)
  Definition write (s : disk * ram) (vals : list dec) (missing : nat) : disk * ram :=
    let (d, r) := s in
    let x := match read_from_ext_ r with CONFIG_INI => CONFIG_TMP | _ => CONFIG_INI end in
    let it := (iteration_ r + 1) mod 2 ^ 32 in
    let o := match x with CONFIG_TMP => tmp d | _ => ini d end in
    let ops := save_ops maxsz install o (config_text install vs vals) it in
    let o' := fold_left do_op (firstn (length ops - missing) ops) o in
    (match x with CONFIG_TMP => Disk (ini d) o' | _ => Disk o' (tmp d) end, Ram x it).

  (** A history: power cycles, completed saves, and saves cut off by a power loss (with
      [missing] bytes not stored) followed by power-on. *)
  Inductive event := Boot | Save (vals : list dec) | Cut (vals : list dec) (missing : nat).
  (** Output: the settings as loaded, whenever the board starts. *)
  Definition step (s : disk * ram) (e : event) : (disk * ram) * option (list dec) :=
    match e with
    | Save vals => (write s vals 0, None)
    | Boot => let (vals, r) := boot (fst s) in ((fst s, r), Some vals)
    | Cut vals missing =>
      let d := fst (write s vals missing) in
      let (loaded, r) := boot d in ((d, r), Some loaded)
    end.
End Protocol.
