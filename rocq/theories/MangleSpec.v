(** What the mangling theorems talk about, stated without the mangler. *)
From Verif Require Import Base.
Local Open Scope nat_scope.

(** A name is a string of byte character codes. *)
Definition byte_string (s : list nat) : Prop := Forall (fun c => c < 256) s.

(** No upper case ASCII letter (compiler names are symbols, printed in lower case). *)
Definition no_uppercase (s : list nat) : Prop := Forall (fun c => ~ (65 <= c <= 90)) s.

(** The name does not use '#' (code 35). *)
Definition no_hash (s : list nat) : Prop := Forall (fun c => c <> 35) s.

(** The name does not use ',' (code 44). *)
Definition no_comma (s : list nat) : Prop := Forall (fun c => c <> 44) s.

(** Characters allowed in a C identifier: 0-9, A-Z, a-z, underscore. *)
Definition c_identifier_text (s : list nat) : Prop :=
  Forall (fun c => 48 <= c <= 57 \/ 65 <= c <= 90 \/ 97 <= c <= 122 \/ c = 95) s.

(** A legal module or library name for the mangler. *)
Definition namespace_name (s : list nat) : Prop := byte_string s /\ no_uppercase s.

Definition colon : nat := 58.
Definition hash : nat := 35.
