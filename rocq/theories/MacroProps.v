(** C97, C98: from a contract's source to its deploy message. *)
From Coq Require Import String List NArith ZArith Bool Lia Permutation.
From Verif Require Import Base Text CodecModel CodecSpec ReceiptModel LayoutModel SectionModel SectionSpec
  SdkModel SdkSpec SdkProofs AbiModel JsonModel MacroModel MacroSpec MacroProofs.
Import ListNotations.
Open Scope list_scope.
Open Scope N_scope.

(** An example: a contract with a constructor, a fundable endpoint with documentation, a hook, a
    helper, and a storage of two fields. *)
Definition nfn (s : string) attrs params output : mfunction := mkFunction (txt s) attrs false params output.
Definition plain (t : prim_type) : written := mkWritten t false.
Definition wallet : template := mkTemplate
  [nfn "initialize" [mkRaw (txt "ctor") EmptyArgs] [(txt "owner", MBase (BPrim (mkWritten TAddress true)))] None;
   nfn "pay" [mkRaw (txt "fundable") NoArgs; mkRaw (txt "inline") NoArgs; mkRaw (txt "endpoint") (DocArg (txt "pays"))]
     [(txt "to", MBase (BArray (plain TAddress) 3)); (txt "sum", MBase (BPrim (plain TAmount)))] (Some (MTuple [BPrim (plain TBool)]));
   nfn "keep" [mkRaw (txt "fundable_hook") (IdentArg (txt "default"))] [] None;
   nfn "helper" [] [(txt "x", MTuple [])] (Some (MTuple []))]
  [mkStruct true false [(txt "owner", MBase (BPrim (mkWritten TAddress true))); (txt "log", MBase (BArray (plain TU16) 4))]].

(** ** C97 The deploy message carries the contract that was written *)
(** [order] stands for the order of a hash map, [compile] for the compiler.  The Rust compiler
    refuses two functions of one name. *)
Definition crafting (order : list export -> list export) (compile : generated -> bytes) (t : template) : Prop :=
  (forall l, Permutation (order l) l) /\ (forall g, bytes_ok (compile g)) /\ NoDup (map fn_name (tp_functions t)) /\
  (forall f, In f (tp_functions t) -> bytes_ok (fn_name f) /\ utf8_valid (fn_name f) = true).
Theorem C97_message :
  forall order compile t msg, crafting order compile t -> craft order compile t = Some msg ->
  exists g m ctors layout, macro_expand order t = Some (g, m) /\
  (* a decoder finds the code, the constructors and the layout of the variables, and nothing else *)
  (forall rest, dec_template None (msg ++ rest) = Ok ([SCode (mkCode 0 (compile g) EXEC_FLAGS Fixed); SCtors ctors; SData [layout]], rest)) /\
  (* the constructors are the functions annotated so, each once, and the code exports them *)
  NoDup ctors /\ (forall n, In n ctors <-> is_ctor_of t n) /\ (forall n, In n ctors -> In n (wasm_exports g)) /\
  (* the layout has exactly the variables of the storage struct *)
  from_byte_sizes 0 (cell_sizes (storage_types t)) = Some layout /\
  (* and the generated accessors use each variable where the layout has it *)
  (forall vs v k, In vs (ge_storage g) -> In v vs -> k < field_cells (sv_type (mv_var v)) ->
    layout_get layout (sv_id (mv_var v) + k) =
      Some (mkVar (sv_id (mv_var v) + k) (sv_offset (mv_var v) + sv_byte_count (mv_var v) * k) (sv_byte_count (mv_var v)))).
Proof.
  intros order compile t msg (P1 & P2 & P3 & P4) E. destruct (craft_decodes order P1 compile P2 t P3 P4 msg E) as (g & m & layout & Em & El & D).
  exists g, m, (ctor_names m), layout. split; [exact Em|]. split; [exact D|]. split; [exact (ctor_names_once order P1 t P3 g m Em)|].
  pose proof (fun n => ctor_names_in order P1 t P3 g m n Em) as I. split; [exact I|]. split; [intros n X; apply (ctors_exported order t g m n Em), I, X|]. split; [exact El|].
  destruct (storage_facts order t g m Em) as (V & _ & S). intros vs v k Ivs Iv Lk. apply S in Ivs. subst vs. apply (storage_layout _ _ layout V El); [now apply in_map|exact Lk].
Qed.
Print Assumptions C97_message.
(** Crafting succeeds exactly for accepted contracts within the limits of the message. *)
Theorem C97_limits :
  forall order compile t, crafting order compile t ->
  ((exists msg, craft order compile t = Some msg) <-> exists g m, macro_expand order t = Some (g, m) /\ deployable t (compile g)).
Proof. intros order compile t (P1 & P2 & P3 & P4). exact (craft_iff order P1 compile P2 t P3 P4). Qed.
Print Assumptions C97_limits.
(** The description next to the code lists every entry once, with its flags, documentation,
    parameters and result, and the fields of the storage in order, with their variables and bytes. *)
Theorem C97_description :
  forall order t g m, (forall l, Permutation (order l) l) -> NoDup (map fn_name (tp_functions t)) -> macro_expand order t = Some (g, m) ->
  exists j api schema es, meta_json m = Some j /\ at_key "api" j = Some (JArr api) /\ at_key "schema" j = Some (JArr schema) /\
  Forall2 describes_entry api es /\ NoDup (map fn_name es) /\ (forall f, In f es <-> In f (tp_functions t) /\ entry f) /\
  List.length schema = List.length (storage_types t) /\
  forall i p f, nth_error (flat_map ms_fields (tp_structs t)) i = Some p -> nth_error (storage_types t) i = Some f ->
    exists o, nth_error schema i = Some o /\
      describes_field o (fst p) f (count_cells (firstn i (storage_types t))) (count_bytes (firstn i (storage_types t))).
Proof. intros order t g m P1 P3 E. exact (description order P1 t P3 g m E). Qed.
Print Assumptions C97_description.
(** The types in the description of a parameter are not the names the JSON interface takes. *)
Theorem C97_type_names_refuted :
  ~ (forall p j ty, snd p = MBase (BPrim (plain ty)) -> emit_param p = Some j ->
     exists name sig, at_key "type" j = Some name /\ sig_of_json name = Some sig).
Proof.
  intros H. destruct (H (txt "sum", MBase (BPrim (plain TAmount))) _ TAmount eq_refl eq_refl) as (name & sig & E & S). vm_compute in E. injection E as <-. vm_compute in S. discriminate S.
Qed.
Print Assumptions C97_type_names_refuted.
Example C97_satisfiable :
  exists msg layout,
  crafting (fun l => rev l) (fun _ => [1; 2; 3]) wallet /\ craft (fun l => rev l) (fun _ => [1; 2; 3]) wallet = Some msg /\
  dec_template None msg = Ok ([SCode (mkCode 0 [1; 2; 3] 1 Fixed); SCtors [txt "initialize"]; SData [layout]], []) /\
  map rv_size (fl_vars layout) = [20; 2; 2; 2; 2].
Proof.
  eexists. eexists. split; [|split; [vm_compute; reflexivity|split; vm_compute; reflexivity]].
  split; [intros l; apply Permutation_sym, Permutation_rev|]. split; [intros _; apply bytes_okb_ok; reflexivity|]. split.
  - vm_compute. repeat (apply NoDup_cons; [intros X; repeat (destruct X as [X|X]; [discriminate X|]); destruct X|]). apply NoDup_nil.
  - intros f [<-|[<-|[<-|[<-|[]]]]]; (split; [apply bytes_okb_ok; reflexivity|reflexivity]).
Qed.
Example C97_limits_satisfiable : deployable wallet [1; 2; 3].
Proof.
  assert (Q : forall n, is_ctor_of wallet n -> n = txt "initialize").
  { intros n (f & [<-|[<-|[<-|[<-|[]]]]] & <- & (a & I & Na)); [reflexivity| | |];
      repeat (destruct I as [<-|I]; [vm_compute in Na; discriminate Na|]); destruct I. }
  constructor.
  - intros l D F. assert ((List.length l <= List.length [txt "initialize"])%nat); [|unfold nlen; cbn in *; lia]. apply NoDup_incl_length; [exact D|]. intros n I. left. symmetry. apply Q, F, I.
  - intros n C. rewrite (Q n C). vm_compute. discriminate.
  - vm_compute. reflexivity.
  - vm_compute. reflexivity.
Qed.

(** ** C98 The macro accepts exactly the legal contracts and wires each annotation *)
Theorem C98_accepts :
  forall order t, (exists r, macro_expand order t = Some r) <-> legal_template t.
Proof. exact accepted. Qed.
Print Assumptions C98_accepts.
(** Each function becomes what its annotations say: an exported entry that calls its hook when it
    receives funds, a hook, or itself. *)
Theorem C98_functions :
  forall order t g m, macro_expand order t = Some (g, m) -> Forall2 (becomes t) (tp_functions t) (ge_items g).
Proof. exact items_become. Qed.
Print Assumptions C98_functions.
(** The hook that takes funds without doing anything is generated exactly when there is no default. *)
Theorem C98_implicit_hook :
  forall order t g m, macro_expand order t = Some (g, m) ->
  (ge_fund g = true <-> forall h, In h (tp_functions t) -> ~ default_for_funds h).
Proof. exact fund_generated. Qed.
Print Assumptions C98_implicit_hook.
(** Callers can reach the entries and nothing else of the contract, next to [svm_verify],
    [svm_alloc] and the implicit hook. *)
Theorem C98_exports :
  forall order t g m n, macro_expand order t = Some (g, m) ->
  (In n (wasm_exports g) <->
   n = txt "svm_verify" \/ n = txt "svm_alloc" \/ (exists f, In f (tp_functions t) /\ fn_name f = n /\ entry f) \/
   (n = txt "svm_fund" /\ forall h, In h (tp_functions t) -> ~ default_for_funds h)).
Proof.
  intros order t g m n E. pose proof (items_become order t g m E) as B. pose proof (fund_generated order t g m E) as F. unfold wasm_exports. cbn [In]. rewrite in_app_iff.
  assert (Q : In n (flat_map (fun i => match i with IEntry n _ => [n] | _ => [] end) (ge_items g)) <-> exists f, In f (tp_functions t) /\ fn_name f = n /\ entry f).
  { rewrite in_flat_map. split.
    - intros (x & Ix & In_). apply In_nth_error in Ix. destruct Ix as [i Ex]. pose proof (Forall2_at _ _ _ B i) as Q. rewrite Ex in Q. destruct (nth_error (tp_functions t) i) as [f|] eqn:Ef; [|contradiction].
      exists f. split; [eapply nth_error_In; exact Ef|]. destruct Q as [h He _|N|N]; [|destruct In_|destruct In_]. destruct In_ as [<-|[]]. auto.
    - intros (f & If & <- & He). apply In_nth_error in If. destruct If as [i Ef]. pose proof (Forall2_at _ _ _ B i) as Q. rewrite Ef in Q. destruct (nth_error (ge_items g) i) as [x|] eqn:Ex; [|contradiction].
      exists x. split; [eapply nth_error_In; exact Ex|]. destruct Q as [h _ _|N|N]; [now left|contradiction|contradiction]. }
  rewrite Q. destruct (ge_fund g).
  - split.
    + intros [<-|[<-|[X|[<-|[]]]]]; auto. right. right. right. split; [reflexivity|]. now apply F.
    + intros [->|[->|[X|[-> X]]]]; auto. right. right. right. now left.
  - split.
    + intros [<-|[<-|[X|[]]]]; auto.
    + intros [->|[->|[X|[-> X]]]]; auto. apply F in X. discriminate X.
Qed.
Print Assumptions C98_exports.
(** A constructor that is also a hook is accepted, and the hook annotation is dropped, although an
    endpoint that is also a hook is refused. *)
Theorem C98_ctor_hook_refuted :
  ~ (forall order t r f, macro_expand order t = Some r -> In f (tp_functions t) -> entry f -> ~ annotated "fundable_hook" f).
Proof.
  intros H. apply (H (fun l => l) (mkTemplate [nfn "make" [mkRaw (txt "ctor") NoArgs; mkRaw (txt "fundable_hook") NoArgs] [(txt "x", MBase (BPrim (plain TU8)))] None] []) _ _ ltac:(vm_compute; reflexivity) ltac:(now left)).
  - left. eexists. split; [now left|reflexivity].
  - eexists. split; [right; now left|reflexivity].
Qed.
Print Assumptions C98_ctor_hook_refuted.
(** Any word behind [fundable_hook] makes it the default. *)
Theorem C98_default_word_refuted :
  ~ (forall order t g m, macro_expand order t = Some (g, m) ->
     (forall f a, In f (tp_functions t) -> In a (fn_attrs f) -> ra_args a <> IdentArg (txt "default")) -> ge_fund g = true).
Proof.
  intros H. specialize (H (fun l => l) (mkTemplate [nfn "take" [mkRaw (txt "fundable_hook") (IdentArg (txt "never"))] [] None] []) _ _ ltac:(vm_compute; reflexivity)).
  cut (false = true); [discriminate|]. apply H. intros f a [<-|[]] [<-|[]]. vm_compute. discriminate.
Qed.
Print Assumptions C98_default_word_refuted.
(** A struct that is not the storage aborts the macro. *)
Theorem C98_plain_struct_refuted :
  ~ (forall order t s, (exists r, macro_expand order t = Some r) -> ms_storage s = false ->
     exists r, macro_expand order (mkTemplate (tp_functions t) (tp_structs t ++ [s])) = Some r).
Proof.
  intros H. destruct (H (fun l => l) (mkTemplate [] []) (mkStruct false false []) (ex_intro _ _ eq_refl) eq_refl) as [r E]. vm_compute in E. discriminate E.
Qed.
Print Assumptions C98_plain_struct_refuted.
Example C98_satisfiable :
  legal_template wallet /\ exists g m, macro_expand (fun l => l) wallet = Some (g, m) /\
  ge_items g = [IEntry (txt "initialize") None; IEntry (txt "pay") (Some (txt "keep")); IHook (txt "keep"); IPlain (txt "helper")] /\ ge_fund g = false /\
  macro_expand (fun l => l) (mkTemplate [nfn "f" [mkRaw (txt "endpoint") NoArgs; mkRaw (txt "fundable") NoArgs] [] None] []) = None.
Proof.
  assert (E : exists r, macro_expand (fun l => l) wallet = Some r) by (vm_compute; eexists; reflexivity). split; [now apply (C98_accepts (fun l => l))|].
  destruct E as [[g m] E]. exists g, m. split; [exact E|]. vm_compute in E. injection E as <- <-. repeat split.
Qed.
