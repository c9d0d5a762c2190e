(** Which byte strings make template decoding abort (C56), said on the bytes alone. *)
From Coq Require Import List NArith.
From Verif Require Import Base CodecModel CodecSpec.
Import ListNotations.
Open Scope N_scope.

(** A text: one byte of length, then that many bytes of UTF-8. *)
Definition text (b : bytes) : Prop := exists s, string_wf 255 s /\ b = nlen s :: s.

(** The kinds of sections as numbered on the wire. *)
Definition kind_number (k : section_kind) : N :=
  match k with
  | KCode => 1 | KData => 2 | KCtors => 3 | KSchema => 4 | KApi => 5 | KHeader => 6 | KDeploy => 7
  end.

(** A layout of no variables, or of variables numbered from [first]; the numbers stay within 32 bits. *)
Definition numbered (first : N) (sizes : list N) (b : bytes) : Prop :=
  sizes <> [] /\ nlen sizes < 65536 /\ first < 4294967296 /\ Forall (fun s => s < 65536) sizes
  /\ b = [0; 1] ++ be_bytes 2 (nlen sizes) ++ be_bytes 4 first ++ concat (map (be_bytes 2) sizes).
Definition good_layout (b : bytes) : Prop :=
  b = [0; 1; 0; 0] \/ exists first sizes, numbered first sizes b /\ first + nlen sizes <= 4294967296.

(** Aborting: an unknown kind of layout, or variables numbered past the last 32-bit number. *)
Definition bad_layout (bs : bytes) : Prop :=
  (exists k rest, k < 65536 /\ k <> 1 /\ bs = be_bytes 2 k ++ rest)
  \/ (exists first sizes b rest, numbered first sizes b /\ 4294967296 < first + nlen sizes /\ bs = b ++ rest).

(** The readable bodies of each kind. *)
Definition good_body (k : section_kind) (b : bytes) : Prop :=
  match k with
  | KCode => exists flags version code, flags < 2 ^ 64 /\ version < 4294967296
      /\ nlen code < 4294967296
      /\ b = [0; 1] ++ be_bytes 8 flags ++ be_bytes 8 1 ++ be_bytes 4 version ++ be_bytes 4 (nlen code) ++ code
  | KData => exists ls, nlen ls < 65536 /\ Forall good_layout ls /\ b = be_bytes 2 (nlen ls) ++ concat ls
  | KCtors => exists ts, nlen ts < 256 /\ Forall text ts /\ b = nlen ts :: concat ts
  | KHeader => exists version name desc, version < 4294967296 /\ text name /\ text desc
      /\ b = be_bytes 4 version ++ name ++ desc
  | KDeploy => nlen b = 80
  | KSchema | KApi => False
  end.

(** Aborting: any schema or API section; code of the only known kind whose gas mode is not
    the only supported one; data with an aborting layout among those announced. *)
Definition bad_body (k : section_kind) (bs : bytes) : Prop :=
  match k with
  | KSchema | KApi => True
  | KCode => exists flags mode rest, flags < 2 ^ 64 /\ mode < 2 ^ 64 /\ mode <> 1
      /\ bs = [0; 1] ++ be_bytes 8 flags ++ be_bytes 8 mode ++ rest
  | KData => exists n ls bad, n < 65536 /\ nlen ls < n /\ Forall good_layout ls /\ bad_layout bad
      /\ bs = be_bytes 2 n ++ concat ls ++ bad
  | KCtors | KHeader | KDeploy => False
  end.

(** The caller asked for this kind ([None] = all of them). *)
Definition asked (interests : option (list section_kind)) (k : section_kind) : Prop :=
  match interests with None => True | Some l => In k l end.

(** Kind and announced size in front of a section. *)
Definition preview (k : section_kind) (size : N) : bytes := be_bytes 2 (kind_number k) ++ be_bytes 4 size.

(** A section that is read whatever its announced size, or skipped by its announced size. *)
Definition passes (interests : option (list section_kind)) (b : bytes) : Prop :=
  exists k size body, size < 4294967296 /\ b = preview k size ++ body
    /\ ((asked interests k /\ good_body k body) \/ (~ asked interests k /\ nlen body = size)).

(** Aborting: among the announced sections, after some that pass, one that was asked for aborts. *)
Definition bad_template (interests : option (list section_kind)) (bs : bytes) : Prop :=
  exists n before k size body, n < 65536 /\ nlen before < n /\ Forall (passes interests) before
    /\ size < 4294967296 /\ asked interests k /\ bad_body k body
    /\ bs = be_bytes 2 n ++ concat before ++ preview k size ++ body.
