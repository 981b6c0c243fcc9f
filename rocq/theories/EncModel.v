(** Model of spicelib/utils/detect_encoding.py, with the decoders it tries.  Bytes and characters are numbers.
    None: UnicodeDecodeError or UnicodeError.  Simplification: cp1250 and shift_jis are given by an oracle. *)
From Coq Require Import List Bool NArith Lia.
Import ListNotations.
Local Open Scope N_scope. Local Open Scope list_scope.

Definition bytes : Type := list N.
Definition chars : Type := list N.
Definition inr (a b x : N) : bool := (a <=? x) && (x <=? b).
Definition cons_ (c : N) (o : option chars) : option chars := match o with Some l => Some (c :: l) | None => None end.
Definition cont (x : N) : bool := inr 128 191 x.
(** "utf-8" of CPython, strict: no overlong forms, no surrogates, at most U+10FFFF. *)
Fixpoint utf8 (l : bytes) : option chars :=
  match l with
  | [] => Some []
  | a :: r =>
      if a <? 128 then cons_ a (utf8 r)
      else if inr 194 223 a then
        match r with b :: r1 => if cont b then cons_ ((a - 192) * 64 + (b - 128)) (utf8 r1) else None | [] => None end
      else if inr 224 239 a then
        match r with
        | b :: c :: r1 => if inr (if a =? 224 then 160 else 128) (if a =? 237 then 159 else 191) b && cont c
                          then cons_ ((a - 224) * 4096 + (b - 128) * 64 + (c - 128)) (utf8 r1) else None
        | _ => None
        end
      else if inr 240 244 a then
        match r with
        | b :: c :: d :: r1 => if inr (if a =? 240 then 144 else 128) (if a =? 244 then 143 else 191) b && cont c && cont d
                               then cons_ ((a - 240) * 262144 + (b - 128) * 4096 + (c - 128) * 64 + (d - 128)) (utf8 r1) else None
        | _ => None
        end
      else None
  end.
(** 16-bit units to characters. *)
Fixpoint of_units (l : list N) : option chars :=
  match l with
  | [] => Some []
  | u :: r => if inr 55296 56319 u
              then match r with
                   | v :: r1 => if inr 56320 57343 v then cons_ (65536 + (u - 55296) * 1024 + (v - 56320)) (of_units r1) else None
                   | [] => None
                   end
              else if inr 56320 57343 u then None else cons_ u (of_units r)
  end.
Fixpoint units (le : bool) (l : bytes) : option (list N) :=
  match l with
  | [] => Some []
  | [_] => None
  | a :: b :: r => cons_ (if le then a + 256 * b else b + 256 * a) (units le r)
  end.
Definition utf16_units (le : bool) (l : bytes) : option chars := match units le l with Some u => of_units u | None => None end.
(** "utf_16_le": no byte order mark is taken off. *)
Definition utf16le := utf16_units true.
(** "utf-16" of a file (encodings/utf_16.py, IncrementalDecoder): a byte order mark is needed unless the file is empty. *)
Definition utf16 (l : bytes) : option chars :=
  match l with
  | [] => Some []
  | a :: b :: r => if (a =? 255) && (b =? 254) then utf16_units true r else if (a =? 254) && (b =? 255) then utf16_units false r else None
  | _ => None
  end.
(** "cp1252": five bytes are not defined; [high]: the characters of the bytes 0x80-0x9F. *)
Definition high : list N :=
  [8364; 0; 8218; 402; 8222; 8230; 8224; 8225; 710; 8240; 352; 8249; 338; 0; 381; 0; 0; 8216; 8217; 8220; 8221; 8226; 8211; 8212; 732; 8482; 353; 8250; 339; 0; 382; 376].
Definition cp1252_c (b : N) : option N :=
  if inr 128 159 b then match nth (N.to_nat (b - 128)) high 0 with 0 => None | c => Some c end else Some b.
Fixpoint cp1252 (l : bytes) : option chars :=
  match l with [] => Some [] | b :: r => match cp1252_c b with Some c => cons_ c (cp1252 r) | None => None end end.

(** Encodings, in the order of detect_encoding.py:49. *)
Inductive enc := Utf8 | Utf16 | Utf16le | Windows1252 | Cp1252 | Cp1250 | ShiftJis.
Definition candidates : list enc := [Utf8; Utf16; Utf16le; Windows1252; Cp1252; Cp1250; ShiftJis].
Section Other.
Variable other : enc -> bytes -> option chars.
Definition decode (e : enc) (l : bytes) : option chars :=
  match e with Utf8 => utf8 l | Utf16 => utf16 l | Utf16le => utf16le l | Windows1252 | Cp1252 => cp1252 l | e => other e l end.
(** Universal newlines of open(). *)
Fixpoint newlines (l : chars) : chars :=
  match l with
  | [] => []
  | c :: r => if c =? 13 then 10 :: match r with d :: r1 => if d =? 10 then newlines r1 else newlines r | [] => [] end else c :: newlines r
  end.
Definition read (e : enc) (l : bytes) : option chars := option_map newlines (decode e l).
Inductive result := Is (e : enc) | NoEncoding | IndexError.
(** detect_encoding.py:49-76; [pattern]: whether the expected pattern matches at the start of a text (always true when there is none). *)
Fixpoint detect_from (pattern : chars -> bool) (file : bytes) (l : list enc) : result :=
  match l with
  | [] => NoEncoding
  | e :: r =>
      match read e file with
      | None => detect_from pattern file r
      | Some [] => detect_from pattern file r
      | Some (c :: t) =>
          if pattern (c :: t)
          then match e with
               | Utf8 => match t with [] => IndexError | 0 :: _ => detect_from pattern file r | _ => Is e end
               | _ => Is e
               end
          else detect_from pattern file r
      end
  end.
Definition detect (pattern : chars -> bool) (file : bytes) : result := detect_from pattern file candidates.
End Other.
