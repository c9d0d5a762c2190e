(** Model of crates/host/codec/src/{ext,error,codec}.rs: the binary codec of messages. *)
From Coq Require Import List NArith ZArith Lia Bool.
From Verif Require Import Base.
Import ListNotations.
Open Scope N_scope.

(** codec/src/error.rs:10-28 [ParseError].  Simplified: [UnexpectedLayout] (never
    produced by the code modelled here) and the payload of [String] are dropped. *)
Inductive parse_error : Type :=
| Eof
| BadByte (b : N)
| BadString
| InvalidSection
| OtherError.

(** A decoder consumes a byte string (what is left of the [Cursor]) and returns a value
    and the remaining bytes.  Simplified: the cursor position after an error is not kept,
    no caller uses it. *)
Definition decoder (A : Type) := bytes -> outcome parse_error (A * bytes).

(** An encoder returns the bytes written; [None] means that [encode] panics. *)
Definition encoder (A : Type) := A -> option bytes.

(** ext.rs:55-60 [Cursor::read_byte]. *)
Definition read_byte : decoder N := fun bs =>
  match bs with
  | [] => Err Eof
  | b :: r => Ok (b, r)
  end.

(** ext.rs:11-17 and 26-30 [read_fill]/[read_bytes]: one [read_byte] per position. *)
Fixpoint read_bytes (n : nat) : decoder bytes := fun bs =>
  match n with
  | O => Ok ([], bs)
  | S n' =>
      let* (b, r) := read_byte bs in
      let* (l, r') := read_bytes n' r in
      Ok (b :: l, r')
  end.

(** codec.rs:444-465 [impl_codec_for_number!] for u16, u32, u64, u128: big endian. *)
Definition enc_uint (w : nat) : encoder N := fun n => Some (be_bytes w n).
Definition dec_uint (w : nat) : decoder N := fun bs =>
  let* (l, r) := read_bytes w bs in Ok (be_value l, r).

Definition enc_u16 := enc_uint 2.
Definition dec_u16 := dec_uint 2.
Definition enc_u32 := enc_uint 4.
Definition dec_u32 := dec_uint 4.
Definition enc_u64 := enc_uint 8.
Definition dec_u64 := dec_uint 8.
Definition enc_u128 := enc_uint 16.
Definition dec_u128 := dec_uint 16.

(** codec.rs:343-353 [impl Codec for u8]. *)
Definition enc_u8 : encoder N := fun b => Some [b].
Definition dec_u8 : decoder N := read_byte.

(** codec.rs:355-370 [impl Codec for bool]. *)
Definition enc_bool : encoder bool := fun b => Some [if b then 1 else 0].
Definition dec_bool : decoder bool := fun bs =>
  let* (b, r) := read_byte bs in
  if b =? 1 then Ok (true, r)
  else if b =? 0 then Ok (false, r)
  else Err (BadByte b).

(** codec.rs:179-193 [impl Codec for [u8; N]] and 467-486 (Address, State,
    TemplateAddr, TransactionId): the raw bytes. *)
Definition enc_array : encoder bytes := fun bs => Some bs.
Definition dec_array (n : nat) : decoder bytes := read_bytes n.

Definition ADDRESS_LEN : nat := 20.
Definition STATE_LEN : nat := 32.
Definition TXID_LEN : nat := 32.

(** codec.rs:102-122 [DataWithPrefix<P>] for a prefix of [w] bytes: the length must fit
    the prefix type, otherwise [encode] panics (unwrap, line 111). *)
Definition enc_data (w : nat) : encoder bytes := fun d =>
  if nlen d <? 256 ^ N.of_nat w then Some (be_bytes w (nlen d) ++ d) else None.
Definition dec_data (w : nat) : decoder bytes := fun bs =>
  let* (len, r) := dec_uint w bs in
  read_bytes (N.to_nat len) r.

(** codec.rs:90 [InputData = DataWithPrefix<u8>], 91 [ReturnData = DataWithPrefix<u16>]. *)
Definition enc_input := enc_data 1.
Definition dec_input := dec_data 1.
Definition enc_return := enc_data 2.
Definition dec_return := dec_data 2.

(** core::str::from_utf8 (used at codec.rs:339): well-formed UTF-8, Unicode table 3-7. *)
Definition in_range (lo hi b : N) : bool := (lo <=? b) && (b <=? hi).
Definition is_cont (b : N) : bool := in_range 128 191 b.
Definition utf8_second3 (b0 b1 : N) : bool :=
  if b0 =? 224 then in_range 160 191 b1
  else if b0 =? 237 then in_range 128 159 b1
  else in_range 225 239 b0 && is_cont b1.
Definition utf8_second4 (b0 b1 : N) : bool :=
  if b0 =? 240 then in_range 144 191 b1
  else if b0 =? 244 then in_range 128 143 b1
  else in_range 241 243 b0 && is_cont b1.
Fixpoint utf8_valid (bs : bytes) : bool :=
  match bs with
  | [] => true
  | b0 :: r0 =>
      if b0 <? 128 then utf8_valid r0
      else match r0 with
      | [] => false
      | b1 :: r1 =>
          if in_range 194 223 b0 then is_cont b1 && utf8_valid r1
          else match r1 with
          | [] => false
          | b2 :: r2 =>
              if in_range 224 239 b0 then utf8_second3 b0 b1 && is_cont b2 && utf8_valid r2
              else match r2 with
              | [] => false
              | b3 :: r3 =>
                  in_range 240 244 b0 && utf8_second4 b0 b1 && is_cont b2 && is_cont b3
                  && utf8_valid r3
              end
          end
      end
  end.

(** codec.rs:325-341 [impl Codec for String]: one length byte; [encode] panics over 255. *)
Definition enc_string : encoder bytes := fun s =>
  if nlen s <? 256 then Some (nlen s :: s) else None.
Definition dec_string : decoder bytes := fun bs =>
  let* (len, r) := read_byte bs in
  let* (s, r') := read_bytes (N.to_nat len) r in
  if utf8_valid s then Ok (s, r') else Err BadString.

(** codec.rs:372-397 [impl Codec for Vec<T>]: u16 count, then the elements. *)
Fixpoint enc_seq {A} (e : encoder A) (l : list A) : option bytes :=
  match l with
  | [] => Some []
  | x :: l' => let? a := e x in let? b := enc_seq e l' in Some (a ++ b)
  end.
Fixpoint dec_seq {A} (d : decoder A) (n : nat) : decoder (list A) := fun bs =>
  match n with
  | O => Ok ([], bs)
  | S n' =>
      let* (x, r) := d bs in
      let* (l, r') := dec_seq d n' r in
      Ok (x :: l, r')
  end.
Definition enc_vec {A} (e : encoder A) : encoder (list A) := fun l =>
  if nlen l <=? u16_max then
    let? b := enc_seq e l in Some (be_bytes 2 (nlen l) ++ b)
  else None.
Definition dec_vec {A} (d : decoder A) : decoder (list A) := fun bs =>
  let* (n, r) := dec_u16 bs in
  dec_seq d (N.to_nat n) r.

(** types/src/gas/mod.rs:11-40 [Gas(Option<u64>)]; codec.rs:164-177: absent gas is
    encoded as 0 and 0 is decoded as absent. *)
Definition gas := option N.
Definition enc_gas : encoder gas := fun g =>
  enc_u64 (match g with Some x => x | None => 0 end).
Definition dec_gas : decoder gas := fun bs =>
  let* (x, r) := dec_u64 bs in
  if x =? 0 then Ok (None, r) else Ok (Some x, r).

(** types/src/transaction/envelope.rs:6-40 [Envelope]. *)
Record envelope := mkEnvelope {
  env_principal : bytes;
  env_amount : N;
  env_nonce : N;
  env_gas_limit : gas;
  env_gas_fee : N
}.

(** codec.rs:137-162 [impl Codec for Envelope]. *)
Definition enc_envelope : encoder envelope := fun e =>
  let? a := enc_array (env_principal e) in
  let? b := enc_u64 (env_amount e) in
  let? c := enc_u128 (env_nonce e) in
  let? d := enc_gas (env_gas_limit e) in
  let? f := enc_u64 (env_gas_fee e) in
  Some (a ++ b ++ c ++ d ++ f).
Definition dec_envelope : decoder envelope := fun bs =>
  let* (a, r) := dec_array ADDRESS_LEN bs in
  let* (b, r) := dec_u64 r in
  let* (c, r) := dec_u128 r in
  let* (d, r) := dec_gas r in
  let* (f, r) := dec_u64 r in
  Ok (mkEnvelope a b c d f, r).

(** types/src/transaction/mod.rs [Transaction]. *)
Record transaction := mkTransaction {
  tx_version : N;
  tx_target : bytes;
  tx_func_name : bytes;
  tx_verifydata : bytes;
  tx_calldata : bytes
}.

(** codec.rs:212-238 [impl Codec for Transaction]. *)
Definition enc_transaction : encoder transaction := fun t =>
  let? a := enc_u16 (tx_version t) in
  let? b := enc_array (tx_target t) in
  let? c := enc_string (tx_func_name t) in
  let? d := enc_input (tx_verifydata t) in
  let? e := enc_input (tx_calldata t) in
  Some (a ++ b ++ c ++ d ++ e).
Definition dec_transaction : decoder transaction := fun bs =>
  let* (a, r) := dec_u16 bs in
  let* (b, r) := dec_array ADDRESS_LEN r in
  let* (c, r) := dec_string r in
  let* (d, r) := dec_input r in
  let* (e, r) := dec_input r in
  Ok (mkTransaction a b c d e, r).

(** types/src/transaction/context.rs [Context]. *)
Record context := mkContext {
  ctx_tx_id : bytes;
  ctx_layer : N;
  ctx_state : bytes
}.

(** codec.rs:255-276 [impl Codec for Context]. *)
Definition enc_context : encoder context := fun c =>
  let? a := enc_array (ctx_tx_id c) in
  let? b := enc_u64 (ctx_layer c) in
  let? d := enc_array (ctx_state c) in
  Some (a ++ b ++ d).
Definition dec_context : decoder context := fun bs =>
  let* (a, r) := dec_array TXID_LEN bs in
  let* (b, r) := dec_u64 r in
  let* (d, r) := dec_array STATE_LEN r in
  Ok (mkContext a b d, r).

(** types/src/spawn_account.rs [SpawnAccount] (the nested [Account] is flattened). *)
Record spawn_account := mkSpawn {
  sp_version : N;
  sp_template : bytes;
  sp_name : bytes;
  sp_ctor : bytes;
  sp_calldata : bytes
}.

(** codec.rs:295-323 [impl Codec for SpawnAccount]. *)
Definition enc_spawn : encoder spawn_account := fun s =>
  let? a := enc_u16 (sp_version s) in
  let? b := enc_array (sp_template s) in
  let? c := enc_string (sp_name s) in
  let? d := enc_string (sp_ctor s) in
  let? e := enc_input (sp_calldata s) in
  Some (a ++ b ++ c ++ d ++ e).
Definition dec_spawn : decoder spawn_account := fun bs =>
  let* (a, r) := dec_u16 bs in
  let* (b, r) := dec_array ADDRESS_LEN r in
  let* (c, r) := dec_string r in
  let* (d, r) := dec_string r in
  let* (e, r) := dec_input r in
  Ok (mkSpawn a b c d e, r).

(** types/src/template/section.rs [SectionKind]; codec.rs:399-435 its two-byte codes. *)
Inductive section_kind : Type := KCode | KData | KCtors | KSchema | KApi | KHeader | KDeploy.
Definition section_kind_code (k : section_kind) : N :=
  match k with
  | KCode => 1 | KData => 2 | KCtors => 3 | KSchema => 4 | KApi => 5 | KHeader => 6 | KDeploy => 7
  end.
Definition enc_section_kind : encoder section_kind := fun k => enc_u16 (section_kind_code k).
Definition dec_section_kind : decoder section_kind := fun bs =>
  let* (n, r) := dec_u16 bs in
  if n =? 1 then Ok (KCode, r)
  else if n =? 2 then Ok (KData, r)
  else if n =? 3 then Ok (KCtors, r)
  else if n =? 4 then Ok (KSchema, r)
  else if n =? 5 then Ok (KApi, r)
  else if n =? 6 then Ok (KHeader, r)
  else if n =? 7 then Ok (KDeploy, r)
  else Err InvalidSection.
