(** What a transaction costs (C105). *)
From Coq Require Import List NArith Bool.
From Verif Require Import Base CodecModel ReceiptModel SectionModel StorageModel GlobalModel RuntimeModel FfiModel.
Import ListNotations.
Open Scope N_scope.

(** The node's price of a function of a template: the one the price computation gives for the
    exported function of that name. *)
Definition template_price (w : world) (g : gstate) (template name : bytes) (price : N) : Prop :=
  exists l cs exports prices index,
    fst (template_sections (w_env w) template g) = Ok l /\ code_of l = Some cs /\ cs_gas_mode cs = Fixed /\
    en_exports (w_engine w) (cs_code cs) = Some exports /\ exports name = Some index /\
    en_prices (w_engine w) (cs_code cs) = Some prices /\ prices index = Some price.
(** The price of a function of an account: that of its template. *)
Definition function_price (w : world) (g : gstate) (account name : bytes) (price : N) : Prop :=
  exists template, fst (account_template (w_env w) account g) = Ok template /\ template_price w g template name price.
(** Prices that a node remembers are those it would compute. *)
Definition remembers_right (w : world) (g : gstate) (c : price_cache) : Prop :=
  forall template l cs p, fst (template_sections (w_env w) template g) = Ok l -> code_of l = Some cs ->
    cache_get template c = Some p -> en_prices (w_engine w) (cs_code cs) = Some p.
