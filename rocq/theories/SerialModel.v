(** Commands from the serial port and from RFID tags. *)
From Coq Require Import ZArith List Bool.
Import ListNotations.
Open Scope Z_scope.

(** What a line leads to: an echoed comment, or DoParse(cmd, e) with e null or the argument. *)
Inductive action := Echo (text : list Z) | Do (cmd : list Z) (arg : option (list Z)).

(** common/serial.h:240-243 the members of Parser.  The buffer cmd_ is a list of [space] bytes
    (uninitialised ones are 0 here), or null. *)
Record parser := Parser { len_ : nat; cmd_ : option (list Z); space_ : nat }.
Definition reset : parser := Parser 0 None 0.

(** cmd_[i] = v; [None] is a write outside of the buffer *)
Definition store (b : list Z) (i : nat) (v : Z) : option (list Z) :=
  if (i <? length b)%nat then Some (firstn i b ++ v :: skipn (S i) b) else None.

(** common/serial.h:197-200 the trailing blanks are cut off; [n] = len_ *)
Fixpoint trim (b : list Z) (n : nat) : option (list Z) :=
  match n with
  | O => Some b
  | S m => let c := nth m b 0 in
           if (c =? 13) || (c =? 32) then match store b m 0 with Some b => trim b m | None => None end else Some b
  end.
(** The C string at the start of the buffer; [None] if there is no terminator. *)
Fixpoint c_string (b : list Z) : option (list Z) :=
  match b with
  | [] => None
  | c :: b => if c =? 0 then Some [] else option_map (cons c) (c_string b)
  end.
Fixpoint skip_spaces (s : list Z) : list Z := match s with c :: s' => if c =? 32 then skip_spaces s' else s | [] => [] end.
(** common/serial.h:209-216: up to the first blank; what follows it, if there is one, is the argument *)
Fixpoint split_word (s : list Z) : list Z * option (list Z) :=
  match s with
  | [] => ([], None)
  | c :: s => if c =? 32 then ([], Some s) else let (w, a) := split_word s in (c :: w, a)
  end.
(** common/serial.h:195-237 ParseLine, for cmd_ = [b] and len_ = [n].  [None] is an access outside
    of the buffer. *)
Definition parse_line (b : list Z) (n : nat) : option (list action) :=
  match n with
  | O => Some []
  | S _ =>
      match trim b n with
      | None => None
      | Some b =>
          match c_string b with
          | None => None
          | Some s =>
              if nth 0 s 0 =? 35 then Some [Echo s]
              else let (w, a) := split_word (skip_spaces s) in Some [Do w a]
          end
      end
  end.

(** One event: a byte (with the answer of realloc, should it be called), or the connection is lost. *)
Inductive event := Byte (c : Z) (alloc : bool) | Disconnect.
(** common/serial.h:149-192 Loop *)
Definition serial_step (p : parser) (e : event) : option (parser * list action) :=
  match e with
  | Disconnect => Some (reset, [])
  | Byte c alloc =>
      if (c =? 10) || (c =? 13) then
        match cmd_ p with
        | None => Some (reset, [])
        | Some b => match parse_line b (len_ p) with Some l => Some (reset, l) | None => None end
        end
      else
        let room := if (space_ p <=? len_ p + 1)%nat
                    then if alloc then
                           let new_space := (space_ p * 3 / 2 + 8)%nat in
                           let b := match cmd_ p with Some b => b | None => [] end in
                           Some (b ++ repeat 0 (new_space - length b), new_space)
                         else None
                    else match cmd_ p with Some b => Some (b, space_ p) | None => Some ([], O) end in
        match room with
        | None => Some (reset, [])
        | Some (b, space) =>
            match store b (len_ p) c with
            | None => None
            | Some b => match store b (len_ p + 1) 0 with
                        | None => None
                        | Some b => Some (Parser (len_ p + 1) (Some b) space, [])
                        end
            end
        end
  end.
Fixpoint serial_run (p : parser) (es : list event) : option (parser * list action) :=
  match es with
  | [] => Some (p, [])
  | e :: es => match serial_step p e with
               | None => None
               | Some (p, a) => match serial_run p es with Some (p, b) => Some (p, a ++ b) | None => None end
               end
  end.

(** common/serial.h:43-110 RFIDParser.  The state is where the state machine waits: for the start
    byte, for digit x (with the code so far), for the checksum, for the end byte. *)
Inductive rfid := Start | Digit (x : nat) (code : Z) | Sum (code : Z) | End_ (code : Z).
(** A character, or 200 ms without one. *)
Inductive rfid_event := Char (c : Z) | Timeout.
Definition hex_digit (c : Z) : option Z :=
  if (48 <=? c) && (c <=? 57) then Some (c - 48)
  else if (65 <=? c) && (c <=? 70) then Some (c - (65 - 10))
  else None.
(** common/serial.h:88-90: x is an int, code a uint64_t *)
Definition checksum (code : Z) : Z :=
  let x := Z.lxor code (Z.shiftr code 24) in
  let x := ((x + 2 ^ 31) mod 2 ^ 32) - 2 ^ 31 in
  let x := Z.lxor x (Z.lxor (Z.shiftr x 8) (Z.shiftr x 16)) in
  Z.land x 255.
(** common/serial.h:71-106 Loop; the output is the code printed and looked up. *)
Definition rfid_step (s : rfid) (e : rfid_event) : rfid * option Z :=
  match e with
  | Timeout => (Start, None)
  | Char c =>
      match s with
      | Start => (if c =? 2 then Digit 0 0 else Start, None)
      | Digit x code =>
          match hex_digit c with
          | None => (Start, None)
          | Some d => let code := Z.lor (Z.shiftl code 4 mod 2 ^ 64) d in
                      (if (x + 1 <? 10)%nat then Digit (x + 1) code else Sum code, None)
          end
      | Sum code => (if c =? checksum code then End_ code else Start, None)
      | End_ code => (Start, if c =? 3 then Some code else None)
      end
  end.
(** common/serial.h:100-104 the commands run for a code *)
Definition rfid_commands {A} (table : list (Z * A)) (code : Z) : list A :=
  map snd (filter (fun p => fst p =? code) table).
