(** What a constructor can cost (C119). *)
From Coq Require Import String List NArith Bool.
From Verif Require Import Base Text CodecModel ReceiptModel SectionModel StorageModel GlobalModel RuntimeModel ProgramModel ProgramSpec PricingModel PricingSpec AcceptSpec.
Import ListNotations.
Open Scope N_scope.

(** What the executed instructions [is] cost by the price list of version 0: one for every
    instruction other than control and calls, the tariff for the functions of the host that it
    lists, and 1000 for the other imported functions. *)
Definition cost (p : program) (is : list instr) : N :=
  count plain_instruction is + fold_right (fun t s => snd t * count (calls_host p (fst t)) is + s) 0 tariff
  + 1000 * count (calls_unlisted p) is.

(** The code passed the validation of deployments. *)
Definition valid_code (parse : bytes -> option wmodule) (code : bytes) : Prop :=
  exists md, parse code = Some md /\ deployable md.

(** [p] is the program in the code of the template [t] (C118 says what it consists of), and [f] is
    its exported function [name]. *)
Definition function_of (e : env) (parse : bytes -> option wmodule) (g : gstate) (t name : bytes) (p : program) (f : N) : Prop :=
  exists l cs, fst (template_sections e t g) = Ok l /\ get_section KCode l = Some (SCode cs) /\
    program_new (parse (cs_code cs)) false = Ok p /\ In (name, f) (p_exports p).
(** The template is to be priced in advance. *)
Definition fixed_price (e : env) (g : gstate) (t : bytes) : Prop :=
  forall l cs, fst (template_sections e t g) = Ok l -> get_section KCode l = Some (SCode cs) -> cs_gas_mode cs = Fixed.

(** A registry after the additions [adds], the first one first. *)
Definition last_added (version : N) (adds : list (N * resolver)) (r : resolver) : Prop :=
  exists before after, adds = before ++ (version, r) :: after /\ ~ In version (map fst after).
