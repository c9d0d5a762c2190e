(** Specification vocabulary for template sections (C12, C13, C56-C58). *)
From Coq Require Import List NArith Bool.
From Verif Require Import Base CodecModel CodecSpec LayoutModel LayoutSpec SectionModel.
Import ListNotations.
Open Scope N_scope.

(** A layout declared by a first id and 16-bit sizes, ids and offsets within 32 bits.
    An empty layout is canonical when it starts at 0 (see C12_empty_layout_refuted). *)
Definition layout_wf (l : fixed_layout) : Prop :=
  exists first sizes,
    fl_first l = Some first /\ nlen sizes < 65535 /\ Forall (uint_wf 16) sizes
    /\ (sizes = [] -> first = 0) /\ (sizes <> [] -> first + nlen sizes <= 4294967296)
    /\ length (fl_vars l) = length sizes
    /\ forall i v, nth_error (fl_vars l) i = Some v -> declared_var first sizes i v.

Definition layout_size (l : fixed_layout) : N :=
  match fl_vars l with [] => 4 | _ => 8 + 2 * nlen (fl_vars l) end.

Definition section_wf (s : section) : Prop :=
  match s with
  | SHeader h => uint_wf 32 (hs_version h) /\ string_wf 255 (hs_name h) /\ string_wf 255 (hs_desc h)
  | SCode c => uint_wf 32 (cs_svm_version c) /\ bytes_ok (cs_code c) /\ uint_wf 64 (cs_flags c)
               /\ cs_gas_mode c = Fixed
  | SData ls => nlen ls <= 65535 /\ Forall layout_wf ls
  | SCtors cs => nlen cs <= 254 /\ Forall (string_wf 255) cs
  | SSchema | SApi => False
  | SDeploy d => array_wf 32 (ds_tx_id d) /\ uint_wf 64 (ds_layer d)
                 /\ array_wf 20 (ds_deployer d) /\ array_wf 20 (ds_template d)
  end.

(** The documented byte size of a section body. *)
Definition section_size (s : section) : N :=
  match s with
  | SHeader h => 4 + (1 + nlen (hs_name h)) + (1 + nlen (hs_desc h))
  | SCode c => 2 + 8 + 8 + 4 + 4 + nlen (cs_code c)
  | SData ls => 2 + total (map layout_size ls)
  | SCtors cs => 1 + total (map (fun c => 1 + nlen c) cs)
  | SSchema | SApi => 0
  | SDeploy _ => 32 + 8 + 20 + 20
  end.

Definition sections_wf (l : sections) : Prop :=
  NoDup (map section_kind_of l)
  /\ Forall (fun s => section_wf s /\ section_size s < 4294967295) l.
