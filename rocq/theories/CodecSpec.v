(** Specification vocabulary for the binary codec properties (C01-C07, C53).
    Independent of the encoders and decoders of the model. *)
From Coq Require Import List NArith Bool.
From Verif Require Import Base CodecModel.
Import ListNotations.
Open Scope N_scope.

(** What the Rust types guarantee: integers in range, arrays of the right length, every
    element a byte, strings valid UTF-8; plus the documented limits of the format
    (lengths of strings and inputs fit one byte). *)
Definition uint_wf (bits : N) (n : N) : Prop := n < 2 ^ bits.
Definition array_wf (n : nat) (bs : bytes) : Prop := length bs = n /\ bytes_ok bs.
Definition blob_wf (max : N) (bs : bytes) : Prop := nlen bs <= max /\ bytes_ok bs.
Definition string_wf (max : N) (bs : bytes) : Prop := blob_wf max bs /\ utf8_valid bs = true.

Record transaction_wf (t : transaction) : Prop := {
  twf_version : uint_wf 16 (tx_version t);
  twf_target : array_wf 20 (tx_target t);
  twf_func : string_wf 255 (tx_func_name t);
  twf_verify : blob_wf 255 (tx_verifydata t);
  twf_call : blob_wf 255 (tx_calldata t)
}.

(** The gas limit is absent or non-zero: [Some 0] is not representable on the wire. *)
Definition gas_wf (g : gas) : Prop :=
  match g with None => True | Some x => 0 < x /\ uint_wf 64 x end.

Record envelope_wf (e : envelope) : Prop := {
  ewf_principal : array_wf 20 (env_principal e);
  ewf_amount : uint_wf 64 (env_amount e);
  ewf_nonce : uint_wf 128 (env_nonce e);
  ewf_limit : gas_wf (env_gas_limit e);
  ewf_fee : uint_wf 64 (env_gas_fee e)
}.

Record context_wf (c : context) : Prop := {
  cwf_id : array_wf 32 (ctx_tx_id c);
  cwf_layer : uint_wf 64 (ctx_layer c);
  cwf_state : array_wf 32 (ctx_state c)
}.

Record spawn_wf (s : spawn_account) : Prop := {
  swf_version : uint_wf 16 (sp_version s);
  swf_template : array_wf 20 (sp_template s);
  swf_name : string_wf 255 (sp_name s);
  swf_ctor : string_wf 255 (sp_ctor s);
  swf_call : blob_wf 255 (sp_calldata s)
}.

(** Round trip: encoding succeeds and decoding returns the value and exactly what follows. *)
Definition round_trips {A} (e : encoder A) (d : decoder A) (x : A) : Prop :=
  exists bs, e x = Some bs /\ forall rest, d (bs ++ rest) = Ok (x, rest).

(** Canonicity: what is accepted is the encoding of what is returned. *)
Definition canonical {A} (e : encoder A) (d : decoder A) (wf : A -> Prop) : Prop :=
  forall bs x rest, bytes_ok bs -> d bs = Ok (x, rest) ->
    wf x /\ exists p, e x = Some p /\ bs = p ++ rest.

(** Decoding always returns: a value with a suffix of the input left over, or an error. *)
Definition never_panics {A} (d : decoder A) : Prop :=
  forall bs, (exists e, d bs = Err e) \/ (exists x pre rest, d bs = Ok (x, rest) /\ bs = pre ++ rest).

(** Every strict prefix of an encoding is rejected with an error. *)
Definition rejects_truncation {A} (e : encoder A) (d : decoder A) (x : A) : Prop :=
  forall bs pre suf, e x = Some bs -> bs = pre ++ suf -> suf <> [] -> exists err, d pre = Err err.

(** Wire layout: [n] is written at byte [off] in [w] bytes, most significant byte first. *)
Definition field_at (bs : bytes) (off w : nat) (n : N) : Prop :=
  forall i, (i < w)%nat -> nth_error bs (off + i) = Some ((n / 256 ^ N.of_nat (w - 1 - i)) mod 256).
(** ... and raw bytes [b] are written from byte [off] on. *)
Definition bytes_at (bs : bytes) (off : nat) (b : bytes) : Prop :=
  forall i, (i < length b)%nat -> nth_error bs (off + i) = nth_error b i.
