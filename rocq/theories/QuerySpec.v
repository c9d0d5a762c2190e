(** What a client expects to see of a variable. *)
From Coq Require Import String List NArith ZArith Bool.
From Verif Require Import Base Text CodecModel JsonModel StorageModel LayoutModel SectionModel GlobalModel QueryModel.
Import ListNotations.
Open Scope string_scope.
Open Scope list_scope.
Open Scope N_scope.

(** The number with these digits to base 256, most significant first. *)
Fixpoint digits (bs : bytes) : N := match bs with [] => 0 | b :: bs' => b * 256 ^ nlen bs' + digits bs' end.
(** The document that shows the bytes of a variable of a type: unsigned integers, integers in two's
    complement, truth values, and hexadecimal digits, two for each byte. *)
Inductive shows : var_type -> bytes -> json -> Prop :=
| shows_unsigned bs : 1 <= nlen bs <= 8 -> shows (TInt false) bs (JNum (Z.of_N (digits bs)))
| shows_signed bs z : 1 <= nlen bs <= 8 ->
    (z mod 2 ^ (8 * Z.of_N (nlen bs)) = Z.of_N (digits bs))%Z ->
    (- 2 ^ (8 * Z.of_N (nlen bs) - 1) <= z < 2 ^ (8 * Z.of_N (nlen bs) - 1))%Z ->
    shows (TInt true) bs (JNum z)
| shows_false : shows TBool [0] (JBool false)
| shows_true : shows TBool [1] (JBool true)
| shows_blob bs h : unhex h = Some bs -> h = hex_upper bs -> shows TBlob bs (JStr h)
| shows_address bs h : unhex h = Some bs -> h = hex_upper bs -> shows TAddress bs (JStr (txt "0x" ++ h))
| shows_key bs h : unhex h = Some bs -> h = hex_upper bs -> shows TPubKey bs (JStr (txt "0x" ++ h)).

(** A schema after its variables were added: of those with the same id, the one added last. *)
Definition added (vs : list qvar) : schema := fold_left add_var vs schema_new.
Definition latest (vs : list qvar) (id : N) (v : qvar) : Prop :=
  exists l1 l2, vs = l1 ++ v :: l2 /\ q_id v = id /\ forall w, In w l2 -> q_id w <> id.
(** What a request shows, when looking does not change the storage: nothing for an unknown
    variable or one that the storage does not have. *)
Definition reading (raw : N -> qvar -> option bytes) : unit -> N -> qvar -> option bytes * unit := fun _ id v => (raw id v, tt).

(** An account's storage as the thing to read from. *)
Definition of_account (e : env) (a : account) (g : gstate) (id : N) (v : qvar) : option bytes :=
  match fst (get_var_vec e a id g) with Ok bs => Some bs | _ => None end.

(** A query of a storage that may change when it is read: the storage is asked for the described
    variables, in the order of the requests, each time in the state the previous reading left. *)
Inductive session {St : Type} (raw : St -> N -> qvar -> option bytes * St) (vs : list qvar) : list N -> St -> list (option json) -> St -> Prop :=
| session_end st : session raw vs [] st [] st
| session_unknown id ids st l st' :
    (forall v, In v vs -> q_id v <> id) -> session raw vs ids st l st' -> session raw vs (id :: ids) st (None :: l) st'
| session_read id ids st v r l st' :
    latest vs id v ->
    (fst (raw st id v) = None -> r = None) ->
    (forall bs, fst (raw st id v) = Some bs -> bytes_ok bs -> nlen bs = q_length v -> forall j, r = Some j <-> shows (q_type v) bs j) ->
    session raw vs ids (snd (raw st id v)) l st' -> session raw vs (id :: ids) st (r :: l) st'.
