(** Builds with and without run-time checks (C122). *)
From Coq Require Import List NArith ZArith Bool.
From Verif Require Import Base SdkModel SdkSpec.
Import ListNotations.
Open Scope list_scope.
Open Scope N_scope.

(** The string cannot be looked at, nor be made part of another string. *)
Definition useless (s : sstring) : Prop := string_bytes s = None /\ forall sb, push_str sb s = None.
(** The [i]-th item of a vector stands in a region of [size] bytes. *)
Definition item_inside (item_size i size : N) : Prop := (i + 1) * item_size <= size.
