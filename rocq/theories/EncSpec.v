(** How texts are written, and what makes an encoding acceptable. *)
From Coq Require Import List Bool NArith.
From Verif Require Import EncModel.
Import ListNotations.
Local Open Scope N_scope. Local Open Scope list_scope.

(** Unicode scalar values. *)
Definition scalar (c : N) : Prop := c < 55296 \/ 57343 < c < 1114112.
(** RFC 3629 *)
Definition utf8_bytes (c : N) : bytes :=
  if c <? 128 then [c]
  else if c <? 2048 then [192 + c / 64; 128 + c mod 64]
  else if c <? 65536 then [224 + c / 4096; 128 + c / 64 mod 64; 128 + c mod 64]
  else [240 + c / 262144; 128 + c / 4096 mod 64; 128 + c / 64 mod 64; 128 + c mod 64].
Definition in_utf8 (t : chars) : bytes := flat_map utf8_bytes t.
(** RFC 2781, little end first *)
Definition utf16_units_of (c : N) : list N := if c <? 65536 then [c] else [55296 + (c - 65536) / 1024; 56320 + (c - 65536) mod 1024].
Definition in_utf16le (t : chars) : bytes := flat_map (fun u => [u mod 256; u / 256]) (flat_map utf16_units_of t).
(** What a reader of the file sees, and whether that encoding is to be taken. *)
Definition acceptable (other : enc -> bytes -> option chars) (pattern : chars -> bool) (file : bytes) (e : enc) : Prop :=
  exists t, read other e file = Some t /\ t <> [] /\ pattern t = true /\ ~ (e = Utf8 /\ nth_error t 1 = Some 0).

(** Universal newlines: what a reader sees of a text. *)
Inductive seen : chars -> chars -> Prop :=
| seen_nil : seen [] []
| seen_crlf t u : seen t u -> seen (13 :: 10 :: t) (10 :: u)
| seen_cr t u : seen t u -> hd_error t <> Some 10 -> seen (13 :: t) (10 :: u)
| seen_other c t u : c <> 13 -> seen t u -> seen (c :: t) (c :: u).
(** The encodings in the order they are tried. *)
Definition order : list enc := [Utf8; Utf16; Utf16le; Windows1252; Cp1252; Cp1250; ShiftJis].
Definition earlier (e e' : enc) : Prop := exists a b c, order = a ++ e :: b ++ e' :: c.
(** A pattern that begins with an ASCII character. *)
Definition begins_ascii (pattern : chars -> bool) : Prop := forall t, pattern t = true -> exists c r, t = c :: r /\ c < 128.
