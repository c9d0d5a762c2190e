(** Walking through the sections of a template (C120). *)
From Coq Require Import List NArith Bool.
From Verif Require Import Base CodecModel ReceiptModel SectionModel SectionSpec StepModel.
Import ListNotations.
Open Scope N_scope.

(** What a user of the decoder does: ask for the next section, and take it or leave it. *)
Inductive op := Next | Take | Leave.
Inductive seen := Announced (k : section_kind) (size : N) | Taken (s : section) | Left.
Definition do (o : op) (d : sdec) : outcome parse_error (seen * sdec) :=
  match o with
  | Next => let* (p, d) := next_preview d in Ok (Announced (fst p) (snd p), d)
  | Take => let* (s, d) := decode_section d in Ok (Taken s, d)
  | Leave => let* d := skip_section d in Ok (Left, d)
  end.
Fixpoint walk (ops : list op) (d : sdec) : outcome parse_error (list seen * sdec) :=
  match ops with
  | [] => Ok ([], d)
  | o :: ops => let* (x, d) := do o d in let* (xs, d) := walk ops d in Ok (x :: xs, d)
  end.
(** For each section whether it is taken. *)
Definition ops_of (choices : list bool) : list op := flat_map (fun c => [Next; if c : bool then Take else Leave]) choices.
Definition seen_of (choices : list bool) (l : sections) : list seen :=
  flat_map (fun cs => [Announced (section_kind_of (snd cs)) (section_size (snd cs)); if fst cs : bool then Taken (snd cs) else Left]) (combine choices l).

(** Operations in the order that is asked for: each announced section is taken or left before the next. *)
Inductive in_order : list op -> Prop :=
| io_nil : in_order []
| io_next : in_order [Next]
| io_pair o ops : o = Take \/ o = Leave -> in_order ops -> in_order (Next :: o :: ops).
