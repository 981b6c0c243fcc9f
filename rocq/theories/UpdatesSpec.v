(** Specification of the edit log: a map from keys to the last value written, in order of first
    writing.  Nothing here mentions the way the log is updated. *)
From Coq Require Import String List Bool ZArith.
From Verif Require Import UpdatesModel.
Import ListNotations.

(** What identifies an edit: its name and kind, and for instructions also its text. *)
Definition ukey : Type := string * utype * option uval.
Definition key_of (e : update) : ukey :=
  (u_name e, u_type e,
   if string_dec (u_name e) "INSTRUCTION" then Some (u_value e) else None).

Definition uval_dec (a b : uval) : {a = b} + {a <> b}.
Proof. decide equality; [apply string_dec | apply Z.eq_dec]. Defined.
Definition utype_dec (a b : utype) : {a = b} + {a <> b}.
Proof. decide equality. Defined.
Definition ukey_dec (a b : ukey) : {a = b} + {a <> b}.
Proof. repeat (decide equality; try apply string_dec; try apply Z.eq_dec). Defined.

(** The most recent edit of history [h] recorded under key [k] (the history is oldest first). *)
Fixpoint last_write (h : list update) (k : ukey) : option update :=
  match h with
  | [] => None
  | e :: rest =>
      match last_write rest k with
      | Some x => Some x
      | None => if ukey_dec (key_of e) k then Some e else None
      end
  end.

(** Keys of a history in order of first occurrence. *)
Fixpoint first_occurrences (seen : list ukey) (h : list update) : list ukey :=
  match h with
  | [] => []
  | e :: rest =>
      if in_dec ukey_dec (key_of e) seen then first_occurrences seen rest
      else key_of e :: first_occurrences (key_of e :: seen) rest
  end.

(** All edits have a real kind. *)
Definition valid_history (h : list update) : Prop := forall e, In e h -> u_type e <> UpInvalid.

(** The last value given to parameter [n] (added or updated), if any. *)
Fixpoint last_param_value (h : list update) (n : string) : option uval :=
  match h with
  | [] => None
  | e :: rest =>
      match last_param_value rest n with
      | Some v => Some v
      | None =>
          if string_dec (u_name e) n then
            match u_type e with
            | UpUpdateParameter | UpAddParameter => Some (u_value e)
            | _ => None
            end
          else None
      end
  end.

(** The last value given to component [n], if any. *)
Fixpoint last_component_value (h : list update) (n : string) : option uval :=
  match h with
  | [] => None
  | e :: rest =>
      match last_component_value rest n with
      | Some v => Some v
      | None =>
          if string_dec (u_name e) n then
            match u_type e with
            | UpUpdateComponentValue => Some (u_value e)
            | _ => None
            end
          else None
      end
  end.
