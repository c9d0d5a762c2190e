(** Model of the section-wise decoder (crates/host/codec/src/section/decode.rs) and of the checks
    of the "craft-deploy" command (crates/host/cli/src/subcmd_craft_deploy/mod.rs). *)
From Coq Require Import List NArith Bool.
From Verif Require Import Base CodecModel ReceiptModel SectionModel.
Import ListNotations.
Open Scope N_scope.

(** section/decode.rs:18-23 [SectionsDecoder]; the reader is the bytes that are left.  Simplified:
    the decoder is not kept after an error. *)
Record sdec : Type := mkSdec { sd_last : option (section_kind * N); sd_read : N; sd_count : N; sd_rest : bytes }.

(** section/decode.rs:30-41, 107-109 [new] *)
Definition sd_new (bs : bytes) : outcome parse_error sdec :=
  let* (n, r) := dec_u16 bs in Ok (mkSdec None 0 n r).
(** section/decode.rs:44-46 [section_count] *)
Definition section_count (d : sdec) : N := sd_count d.
(** section/decode.rs:49-51 [is_eof] *)
Definition is_eof (d : sdec) : bool := sd_count d <=? sd_read d.
(** section/decode.rs:54-70 [next_preview] *)
Definition next_preview (d : sdec) : outcome parse_error ((section_kind * N) * sdec) :=
  if is_eof d then Err OtherError
  else match sd_last d with
  | Some _ => Panic
  | None =>
      let* (p, r) := dec_preview (sd_rest d) in
      Ok (p, mkSdec (Some p) (sd_read d + 1) (sd_count d) r)
  end.
(** section/decode.rs:73-92 [decode_section] *)
Definition decode_section (d : sdec) : outcome parse_error (section * sdec) :=
  match sd_last d with
  | None => Panic
  | Some (k, _) =>
      let* (s, r) := dec_section k (sd_rest d) in
      Ok (s, mkSdec None (sd_read d) (sd_count d) r)
  end.
(** section/decode.rs:95-105, 111-116 [skip_section] *)
Definition skip_section (d : sdec) : outcome parse_error sdec :=
  match sd_last d with
  | None => Panic
  | Some (_, size) =>
      let* (_, r) := read_bytes (N.to_nat size) (sd_rest d) in
      Ok (mkSdec None (sd_read d) (sd_count d) r)
  end.

(** section/decode.rs:118-144 [decode_sections], with the decoder. *)
Fixpoint decode_loop (wanted : section_kind -> bool) (n : nat) (acc : sections) (d : sdec) : outcome parse_error (sections * sdec) :=
  match n with
  | O => Ok (acc, d)
  | S n =>
      let* (p, d) := next_preview d in
      if wanted (fst p) then
        let* (s, d) := decode_section d in
        decode_loop wanted n (insert_section s acc) d
      else
        let* d := skip_section d in
        decode_loop wanted n acc d
  end.
Definition decode_sections (interests : option (list section_kind)) (bs : bytes) : outcome parse_error (sections * bytes) :=
  let* d := sd_new bs in
  let* (l, d) := decode_loop (wants interests) (N.to_nat (section_count d)) [] d in
  Ok (l, sd_rest d).

(** section/encode.rs:13-66 [SectionsEncoder]: [default], [encode] and [finish]. *)
Definition encoder_default : list (section_kind * bytes) := [].
Definition encoder_encode (l : sections) (e : list (section_kind * bytes)) : option (list (section_kind * bytes)) := enc_buffers l e.
Definition encoder_finish (e : list (section_kind * bytes)) : option bytes := finish e.

(** subcmd_craft_deploy/mod.rs:99-110 [assert_section]; both assertions are about the same preview. *)
Definition assert_section (d : sdec) (expected : section_kind) : outcome parse_error sdec :=
  let* (p, d) := next_preview d in
  if kind_eqb (fst p) expected then
    let* d := skip_section d in
    if kind_eqb (fst p) expected then Ok d else Panic
  else Panic.
(** subcmd_craft_deploy/mod.rs:85-97 [test_sections_encoding].  Simplified: the results of the three
    calls of [assert_section] are dropped by the code; here the first error is the result. *)
Definition test_sections_encoding (bs : bytes) : outcome parse_error unit :=
  let* d := sd_new bs in
  if section_count d =? 3 then
    let* d := assert_section d KCode in
    let* d := assert_section d KCtors in
    let* _ := assert_section d KData in
    Ok tt
  else Panic.
(** subcmd_craft_deploy/mod.rs:112-118 [test_decode_as_template] *)
Definition test_decode_as_template (bs : bytes) : outcome parse_error unit :=
  let* _ := dec_template None bs in Ok tt.
