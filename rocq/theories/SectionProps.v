(** Property theorems for template sections. *)
From Coq Require Import List NArith Bool.
From Verif Require Import Base CodecModel CodecSpec LayoutModel LayoutSpec SectionModel SectionSpec SectionProofs.
Import ListNotations.
Open Scope N_scope.

(** ** C12 Template sections round trip *)
Theorem C12_template_round_trip :
  forall l, sections_wf l ->
  In KCode (map section_kind_of l) -> In KData (map section_kind_of l) -> In KCtors (map section_kind_of l) ->
  exists bs, enc_sections l = Some bs /\ forall rest, dec_template None (bs ++ rest) = Ok (l, rest).
Proof. exact template_rt. Qed.
Print Assumptions C12_template_round_trip.

Definition ex_layout : fixed_layout := mkLayout (Some 3) [mkVar 3 0 4; mkVar 4 4 20].
Definition ex_sections : sections :=
  [ SCode (mkCode 1 [0; 97; 115; 109] 1 Fixed);
    SHeader (mkHeader 2 [65] [66; 67]);
    SData [ex_layout];
    SCtors [[105; 110; 105; 116]; [97]];
    SDeploy (mkDeploy (repeat 1 32) 10 (repeat 2 20) (repeat 3 20)) ].
Example C12_satisfiable :
  sections_wf ex_sections /\ In KCode (map section_kind_of ex_sections)
  /\ In KData (map section_kind_of ex_sections) /\ In KCtors (map section_kind_of ex_sections).
Proof.
  split; [|cbn; tauto]. split.
  { repeat constructor; cbn; intuition discriminate. }
  assert (L : layout_wf ex_layout).
  { exists 3, [4; 20]. split; [reflexivity|]. split; [reflexivity|]. split; [repeat constructor|].
    split; [discriminate|]. split; [discriminate|]. split; [reflexivity|].
    intros [|[|i]] v; cbn; try (intros [= <-]; repeat split).
    destruct i; discriminate. }
  unfold ex_sections.
  repeat match goal with |- Forall _ (_ :: _) => constructor | |- Forall _ [] => constructor end;
    (split; [|reflexivity]); cbn [section_wf];
    repeat match goal with |- _ /\ _ => split end;
    try reflexivity; try discriminate; try (apply bytes_okb_ok; reflexivity); try (repeat constructor; discriminate);
    try (repeat constructor; exact L);
    repeat match goal with |- Forall _ (_ :: _) => constructor | |- Forall _ [] => constructor end;
    try exact L; repeat split; try discriminate; apply bytes_okb_ok; reflexivity.
Qed.

(** Exactly the bytes of sections that include a Code, a Data and a Ctors section are a
    template; a missing one is reported as an invalid section. *)
Theorem C12_mandatory_sections :
  forall interests bs,
  (forall l rest, dec_template interests bs = Ok (l, rest) <->
     dec_sections interests bs = Ok (l, rest)
     /\ forall k, In k [KCode; KData; KCtors] -> In k (map section_kind_of l))
  /\ (forall l rest k, dec_sections interests bs = Ok (l, rest) -> In k [KCode; KData; KCtors] ->
       ~ In k (map section_kind_of l) -> dec_template interests bs = Err InvalidSection).
Proof. intros interests bs. apply mandatory_sections. Qed.
Print Assumptions C12_mandatory_sections.
Example C12_mandatory_satisfiable :
  exists l, dec_sections None [0; 1; 0; 3; 0; 0; 0; 1; 0] = Ok (l, [])
  /\ dec_template None [0; 1; 0; 3; 0; 0; 0; 1; 0] = Err InvalidSection.
Proof. eexists. split; vm_compute; reflexivity. Qed.

(** ** C13 Selective decoding *)
Theorem C13_selective_decoding :
  forall l, sections_wf l ->
  exists bs, enc_sections l = Some bs /\
    nlen bs = 2 + total (map (fun s => 6 + section_size s) l) /\
    forall interests rest,
      dec_sections interests (bs ++ rest)
      = Ok (filter (fun s => match interests with
                             | None => true
                             | Some ks => existsb (kind_eqb (section_kind_of s)) ks
                             end) l, rest).
Proof. exact sections_rt. Qed.
Print Assumptions C13_selective_decoding.

(** Section sizes are announced by the sender and only trusted when skipping: for bytes not
    produced by the encoder, selective decoding can see another template than full decoding. *)
Definition crafted_core (code : N) : bytes :=
  [0; 1; 0; 0; 0; 27; 0; 1; 0; 0; 0; 0; 0; 0; 0; 1; 0; 0; 0; 0; 0; 0; 0; 1; 0; 0; 0; 0; 0; 0; 0; 1; code]
  ++ [0; 2; 0; 0; 0; 2; 0; 0]
  ++ [0; 3; 0; 0; 0; 1; 0].
Definition crafted_template : bytes :=
  [0; 4; 0; 6; 0; 0; 0; 6; 0; 0; 0; 0; 0; 48] ++ crafted_core 7 ++ crafted_core 9.
Theorem C13_announced_size_trusted_refuted :
  exists bs full part r,
    dec_template None bs = Ok (full, []) /\
    dec_template (Some [KCode; KData; KCtors]) bs = Ok (part, r) /\
    get_section KCode full = Some (SCode (mkCode 0 [9] 1 Fixed)) /\
    get_section KCode part = Some (SCode (mkCode 0 [7] 1 Fixed)).
Proof.
  exists crafted_template. do 3 eexists. repeat split; vm_compute; reflexivity.
Qed.
Print Assumptions C13_announced_size_trusted_refuted.

(** An empty layout is not preserved: it comes back starting at id 0. *)
Theorem C12_empty_layout_refuted :
  exists bs, enc_layout default_layout = Some bs /\
    dec_layout bs = Ok (mkLayout (Some 0) [], []) /\ default_layout <> mkLayout (Some 0) [].
Proof. eexists. repeat split; try (vm_compute; reflexivity). discriminate. Qed.
Print Assumptions C12_empty_layout_refuted.

(** Variable sizes above 65535 bytes are silently truncated by the encoding. *)
Theorem C12_large_variable_refuted :
  exists l bs l', from_byte_sizes 0 [65537] = Some l /\ enc_layout l = Some bs /\
    dec_layout bs = Ok (l', []) /\ map rv_size (fl_vars l') = [1].
Proof. do 3 eexists. repeat split; vm_compute; reflexivity. Qed.
Print Assumptions C12_large_variable_refuted.

(** ** C56 Template decoding never crashes *)
Theorem C56_selective_decoding_total_partial :
  forall interests,
  (forall k, In k interests -> k = KHeader \/ k = KCtors \/ k = KDeploy) ->
  never_panics (dec_sections (Some interests)).
Proof. exact np_sections_plain. Qed.
Print Assumptions C56_selective_decoding_total_partial.

Theorem C56_template_decoding_refuted :
  (* a schema section, an unknown gas mode, an unknown layout kind, a layout past the last id *)
  dec_template None [0; 1; 0; 4; 0; 0; 0; 0] = Panic
  /\ dec_template None ([0; 1; 0; 1; 0; 0; 0; 0; 0; 1] ++ repeat 0 8 ++ repeat 0 8) = Panic
  /\ dec_template None [0; 1; 0; 2; 0; 0; 0; 0; 0; 1; 0; 0] = Panic
  /\ dec_template None [0; 1; 0; 2; 0; 0; 0; 0; 0; 1; 0; 1; 0; 2; 255; 255; 255; 255; 0; 1; 0; 1] = Panic.
Proof. repeat split; vm_compute; reflexivity. Qed.
Print Assumptions C56_template_decoding_refuted.
