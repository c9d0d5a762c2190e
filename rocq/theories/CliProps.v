(** C103 and C104: the command line tool. *)
From Coq Require Import String List NArith ZArith Bool Lia.
From Verif Require Import Base Text CodecModel CodecSpec ReceiptModel ReceiptProofs SectionModel GraphModel GraphSpec ProgramModel ProgramSpec ProgramProofs ProgramProps PricingModel PricingSpec PricingProofs.
From Verif Require Import AbiModel AbiSpec JsonModel JsonSpec JsonProofs JsonProps CliModel CliSpec CliProofs.
Import ListNotations.
Open Scope string_scope.
Open Scope list_scope.
Open Scope N_scope.

(** ** C103 Crafting transactions *)

(** On a disk that takes the file, the tool writes the message for what the document describes
    into the output file and touches no other file; when the document describes nothing it
    aborts and touches no file at all. *)
Theorem C103_exact :
  forall parse_json ty input output fs text,
  parses_unicode parse_json -> fs input = Some text -> utf8_valid text = true ->
  match subcmd_tx parse_json DWritten ty input output fs with
  | (Ok _, fs') => exists j bs, parse_json text = Some j /\ message ty j bs /\ fs' output = Some bs /\ (forall path, path <> output -> fs' path = fs path)
  | (Panic, fs') => fs' = fs /\ forall j bs, parse_json text = Some j -> ~ message ty j bs
  | (Err _, _) => False
  end.
Proof.
  intros pj ty input output fs text U Ei Et. unfold subcmd_tx. rewrite Ei, Et. destruct (pj text) as [j|] eqn:Ej; cbn [obind].
  - pose proof (U text j Ej) as Uj. destruct (encode_tx ty j) as [bs|] eqn:E.
    + exists j, bs. split; [reflexivity|]. split; [now apply encode_message|]. unfold put_file. rewrite (proj2 (bytes_eqb_spec output output) eq_refl). split; [reflexivity|].
      intros path N0. destruct (bytes_eqb output path) eqn:Eo; [|reflexivity]. apply bytes_eqb_spec in Eo. congruence.
    + split; [reflexivity|]. intros j' bs [= <-] M. apply encode_message in M; [congruence|exact Uj].
  - split; [reflexivity|]. intros j bs H. discriminate H.
Qed.
Print Assumptions C103_exact.
(** A document that describes a call or an account with short names and inputs has a message,
    and only one. *)
Theorem C103_call :
  forall j t, unicode j -> call_file j t -> (short_call t <-> exists bs, message TxCall j bs) /\
  forall bs bs', message TxCall j bs -> message TxCall j bs' -> bs = bs'.
Proof.
  intros j t U D. split; [split|].
  - exact (described_message_call j t U D).
  - intros [bs M]. apply encode_message in M; [|exact U]. apply encode_call_file in M. destruct M as (t' & D' & E). apply enc_transaction_short in E.
    assert (t' = t) as ->; [|exact E]. destruct D as (A1 & _ & (s & A2 & A2' & _) & A3 & A4 & A5), D' as (B1 & _ & (s' & B2 & B2' & _) & B3 & B4 & B5). destruct t, t'. cbn in *.
    pose proof (field_fun _ _ _ _ A1 B1) as E1. pose proof (field_fun _ _ _ _ A2 B2) as E2. pose proof (field_fun _ _ _ _ A3 B3) as E3.
    injection E2 as <-. apply unhex_spelled in A2', B2'. rewrite A2' in B2'. injection B2' as <-. injection E1 as E1. injection E3 as <-. apply N2Z.inj in E1.
    rewrite (typed_field_fun _ _ _ _ A4 B4), (typed_field_fun _ _ _ _ A5 B5), E1. reflexivity.
  - intros bs bs' M M'. apply encode_message in M, M'; try exact U. congruence.
Qed.
Print Assumptions C103_call.
Theorem C103_spawn :
  forall j t, unicode j -> spawn_file j t -> (short_spawn t <-> exists bs, message TxSpawn j bs) /\
  forall bs bs', message TxSpawn j bs -> message TxSpawn j bs' -> bs = bs'.
Proof.
  intros j t U D. split; [split|].
  - exact (described_message_spawn j t U D).
  - intros [bs M]. apply encode_message in M; [|exact U]. apply encode_spawn_file in M. destruct M as (t' & D' & E). apply enc_spawn_short in E.
    assert (t' = t) as ->; [|exact E]. destruct D as (A1 & _ & (s & A2 & A2' & _) & A3 & A4 & A5), D' as (B1 & _ & (s' & B2 & B2' & _) & B3 & B4 & B5). destruct t, t'. cbn in *.
    pose proof (field_fun _ _ _ _ A1 B1) as E1. pose proof (field_fun _ _ _ _ A2 B2) as E2. pose proof (field_fun _ _ _ _ A3 B3) as E3. pose proof (field_fun _ _ _ _ A4 B4) as E4.
    injection E2 as <-. apply unhex_spelled in A2', B2'. rewrite A2' in B2'. injection B2' as <-. injection E1 as E1. injection E3 as <-. injection E4 as <-. apply N2Z.inj in E1.
    rewrite (typed_field_fun _ _ _ _ A5 B5), E1. reflexivity.
  - intros bs bs' M M'. apply encode_message in M, M'; try exact U. congruence.
Qed.
Print Assumptions C103_spawn.
(** Whatever the disk does, a file other than the output file is never touched, and the output
    file gets nothing but a beginning of the message. *)
Theorem C103_other_files :
  forall parse_json disk_ ty input output fs r fs',
  parses_unicode parse_json -> subcmd_tx parse_json disk_ ty input output fs = (r, fs') ->
  (forall path, path <> output -> fs' path = fs path) /\
  (fs' output = fs output \/ exists text j bs rest, fs input = Some text /\ parse_json text = Some j /\ message ty j (bs ++ rest) /\ fs' output = Some bs) /\
  (r = Ok tt -> exists text j bs, fs input = Some text /\ parse_json text = Some j /\ message ty j bs /\ fs' output = Some bs).
Proof.
  intros pj d ty input output fs r fs' U. unfold subcmd_tx. destruct (fs input) as [text|] eqn:Ei; [|intros [= <- <-]; repeat split; auto; discriminate].
  destruct (utf8_valid text); [|intros [= <- <-]; repeat split; auto; discriminate].
  destruct (pj text) as [j|] eqn:Ej; cbn [obind]; [|intros [= <- <-]; repeat split; auto; discriminate].
  pose proof (U text j Ej) as Uj. destruct (encode_tx ty j) as [bs|] eqn:E; [|intros [= <- <-]; repeat split; auto; discriminate].
  apply encode_message in E; [|exact Uj]. assert (P : forall c, put_file fs output c output = Some c) by (intros c; unfold put_file; now rewrite (proj2 (bytes_eqb_spec output output) eq_refl)).
  assert (Q : forall c path, path <> output -> put_file fs output c path = fs path).
  { intros c path N0. unfold put_file. destruct (bytes_eqb output path) eqn:Eo; [|reflexivity]. apply bytes_eqb_spec in Eo. congruence. }
  destruct d as [|n|]; intros [= <- <-].
  - repeat split; auto; discriminate.
  - split; [apply Q|]. split; [|discriminate]. right. exists text, j, (firstn n bs), (skipn n bs). rewrite firstn_skipn. auto.
  - split; [apply Q|]. split; [right; exists text, j, bs, []; rewrite app_nil_r; auto|]. intros _. exists text, j, bs. auto.
Qed.
Print Assumptions C103_other_files.
(** What the system refuses is reported, and nothing is changed but for the part of the message
    that was written: a file that cannot be read, is not text, or cannot be written. *)
Theorem C103_system_errors :
  forall parse_json disk_ ty input output fs,
  (fs input = None -> subcmd_tx parse_json disk_ ty input output fs = (Err EIo, fs)) /\
  (forall text, fs input = Some text -> utf8_valid text = false -> subcmd_tx parse_json disk_ ty input output fs = (Err EIo, fs)) /\
  (forall text j bs, fs input = Some text -> utf8_valid text = true -> parse_json text = Some j -> unicode j -> message ty j bs ->
     match disk_ with
     | DWritten => fst (subcmd_tx parse_json disk_ ty input output fs) = Ok tt
     | DRefused => subcmd_tx parse_json disk_ ty input output fs = (Err EIo, fs)
     | DCut n => exists fs', subcmd_tx parse_json disk_ ty input output fs = (Err EIo, fs') /\ fs' output = Some (firstn n bs) /\
         (forall path, path <> output -> fs' path = fs path)
     end).
Proof.
  intros pj d ty input output fs. unfold subcmd_tx. split; [intros ->; reflexivity|]. split; [intros text -> ->; reflexivity|].
  intros text j bs -> -> -> U M. cbn [obind]. apply encode_message in M; [|exact U]. rewrite M. destruct d as [|n|]; try reflexivity.
  eexists. split; [reflexivity|]. unfold put_file. rewrite (proj2 (bytes_eqb_spec output output) eq_refl). split; [reflexivity|].
  intros path N0. destruct (bytes_eqb output path) eqn:Eo; [|reflexivity]. apply bytes_eqb_spec in Eo. congruence.
Qed.
Print Assumptions C103_system_errors.
(** The interface for documents gives the same bytes for the same document. *)
Theorem C103_same_as_interface :
  forall j bs, (encode_tx TxCall j = Some bs -> encode_call_raw j = Ok bs) /\ (encode_tx TxSpawn j = Some bs -> encode_spawn j = Ok bs).
Proof.
  assert (A : forall n j bs, typed_field n j bs -> exists v, field n j v /\ arg_bytes v bs).
  { intros n j bs (v & ts & ds & vs & F & I1 & _ & Z & ->). exists v. split; [exact F|]. right. exists ts, ds, vs. split; [left; exact I1|auto]. }
  intros j bs. split; intros H.
  - apply encode_call_file in H. destruct H as (t & (D1 & D2 & D3 & D4 & D5 & D6) & E). apply encode_call_spec. exists t. split; [|exact E].
    unfold call_doc. auto 10.
  - apply encode_spawn_file in H. destruct H as (t & (D1 & D2 & D3 & D4 & D5 & D6) & E). apply encode_spawn_spec. exists t. split; [|exact E].
    unfold spawn_doc. auto 10.
Qed.
Print Assumptions C103_same_as_interface.
(** The converse fails: the interface also takes inputs in hexadecimal, on which the tool
    aborts. *)
Theorem C103_hexadecimal_refuted :
  ~ (forall j bs, encode_call_raw j = Ok bs -> encode_tx TxCall j <> None).
Proof.
  intros H. assert (E : exists bs, encode_call_raw ex_call = Ok bs) by (eexists; vm_compute; reflexivity). destruct E as [bs E].
  apply (H ex_call bs E). vm_compute. reflexivity.
Qed.
Print Assumptions C103_hexadecimal_refuted.
(** A mistake in a document is not reported: the tool aborts. *)
Theorem C103_reports_refuted :
  ~ (forall parse_json disk_ ty input output fs, fst (subcmd_tx parse_json disk_ ty input output fs) <> Panic).
Proof. intros H. apply (H (fun _ => None) DWritten TxCall [] [] (fun _ => Some [])). reflexivity. Qed.
Print Assumptions C103_reports_refuted.
(** An error of the disk leaves a file with a part of the message. *)
Definition cli_call : json :=
  JObj [(txt "calldata", JObj [(txt "abi", JArr [JStr (txt "bool"); JStr (txt "u8")]); (txt "data", JArr [JBool true; JNum 30])]);
        (txt "func_name", JStr (txt "do_work")); (txt "target", hex_to_json (repeat 171 20));
        (txt "verifydata", JObj [(txt "abi", JArr [JStr (txt "u32"); JStr (txt "amount")]); (txt "data", JArr [JNum 10; JNum 20])]);
        (txt "version", JNum 0)].
Definition cli_tx : transaction :=
  mkTransaction 0 (repeat 171 20) (txt "do_work") (flat_map format [VPrim (PInt U32 10); VPrim (PAmount 20)]) (flat_map format [VPrim (PBool true); VPrim (PInt U8 30)]).
Theorem C103_atomic_refuted :
  ~ (forall parse_json disk_ ty input output fs e fs', parses_unicode parse_json ->
       subcmd_tx parse_json disk_ ty input output fs = (Err e, fs') -> fs' output = fs output).
Proof.
  intros H. set (fs := fun path => if bytes_eqb path (txt "in") then Some (txt "text") else None).
  assert (U : parses_unicode (fun _ => Some cli_call)).
  { intros text j [= <-] name s (f & [= <-] & A). cbn [JsonModel.assoc] in A.
    repeat match type of A with context [if ?b then _ else _] => destruct b end; try discriminate A; injection A as <-; (split; [apply bytes_okb_ok|]; reflexivity). }
  destruct (encode_tx TxCall cli_call) as [bs|] eqn:Eb; [|vm_compute in Eb; discriminate Eb].
  assert (E : subcmd_tx (fun _ => Some cli_call) (DCut 3) TxCall (txt "in") (txt "out") fs = (Err EIo, put_file fs (txt "out") (firstn 3 bs))).
  { unfold subcmd_tx. change (fs (txt "in")) with (Some (txt "text")). change (utf8_valid (txt "text")) with true. cbv iota. cbn [obind]. rewrite Eb. reflexivity. }
  pose proof (H _ _ _ _ _ _ _ _ U E) as X. discriminate X.
Qed.
Print Assumptions C103_atomic_refuted.
(** The example of the repository (examples/tx-call.json, with another address). *)
Example C103_satisfiable :
  unicode cli_call /\ call_file cli_call cli_tx /\ short_call cli_tx /\ exists bs, encode_tx TxCall cli_call = Some bs.
Proof.
  assert (U : unicode cli_call).
  { intros name s (f & [= <-] & A). cbn [JsonModel.assoc] in A.
    repeat match type of A with context [if ?b then _ else _] => destruct b end; try discriminate A; injection A as <-; (split; [apply bytes_okb_ok|]; reflexivity). }
  split; [exact U|]. assert (E : exists bs, encode_tx TxCall cli_call = Some bs) by (eexists; vm_compute; reflexivity). destruct E as [bs E].
  assert (M : message TxCall cli_call bs) by (now apply encode_message). destruct M as (B & t & D & Dt).
  assert (Et : enc_transaction cli_tx = Some bs) by (rewrite <- E; vm_compute; reflexivity).
  destruct (CodecProofs.transaction_canon bs t [] B Dt) as (_ & q & Eq & Ebs). rewrite app_nil_r in Ebs. subst q.
  assert (W : transaction_wf cli_tx).
  { constructor.
    - vm_compute; reflexivity.
    - split; [reflexivity|apply bytes_okb_ok; vm_compute; reflexivity].
    - split; [split; [vm_compute; discriminate|apply bytes_okb_ok; vm_compute; reflexivity]|vm_compute; reflexivity].
    - split; [vm_compute; discriminate|apply bytes_okb_ok; vm_compute; reflexivity].
    - split; [vm_compute; discriminate|apply bytes_okb_ok; vm_compute; reflexivity]. }
  destruct (CodecProofs.transaction_rt cli_tx W) as (bs' & E' & R). rewrite Et in E'. injection E' as <-. specialize (R []). rewrite app_nil_r in R. rewrite R in Dt. injection Dt as <-.
  split; [exact D|]. split; [exact (enc_transaction_short _ _ Et)|eauto].
Qed.

(** ** C104 Validating a module *)

(** The tool says what it cannot read: a missing file, a name that tells no format, a text that is
    not Unicode. *)
Theorem C104_unreadable :
  forall parse_wat parse path fs,
  (fs path = None -> subcmd_validate parse_wat parse path fs = ([], Err EIo)) /\
  (forall content, fs path = Some content ->
     (forall stem ext, In ext ["wasm"; "wat"; "wast"] -> path <> stem ++ txt ("." ++ ext)) ->
     subcmd_validate parse_wat parse path fs = ([], Err EUnknownExtension)) /\
  (forall content stem ext, fs path = Some content -> In ext ["wat"; "wast"] -> path = stem ++ txt ("." ++ ext) -> utf8_valid content = false ->
     subcmd_validate parse_wat parse path fs = ([LNotUtf8], Err EInvalidUtf8)).
Proof.
  intros pw ps path fs. unfold subcmd_validate. split; [intros ->; reflexivity|]. split.
  - intros content -> H.
    assert (X : forall ext, In ext ["wasm"; "wat"; "wast"] -> ends_with path (txt ("." ++ ext)) = false).
    { intros ext I. destruct (ends_with path _) eqn:E; [|reflexivity]. apply ends_with_spec in E. destruct E as [stem E]. destruct (H stem ext I E). }
    pose proof (X "wat" ltac:(cbn; auto)) as X1. pose proof (X "wast" ltac:(cbn; auto)) as X2. pose proof (X "wasm" ltac:(cbn; auto)) as X3.
    cbn [String.append] in X1, X2, X3. rewrite X1, X2, X3. reflexivity.
  - intros content stem ext -> I -> E. assert (X : ends_with (stem ++ txt ("." ++ ext)) (txt ("." ++ ext)) = true) by (apply ends_with_spec; eauto).
    destruct I as [<-|[<-|[]]]; cbn [String.append] in X |- *; rewrite X, ?orb_true_r, E; reflexivity.
Qed.
Print Assumptions C104_unreadable.
(** A file is called valid exactly when it contains a module, in the format its name tells,
    whose code obeys the rules. *)
Theorem C104_valid :
  forall parse_wat parse path fs content, fs path = Some content ->
  (In LValid (fst (subcmd_validate parse_wat parse path fs)) <-> exists m, contains parse_wat parse path content m /\ plain_code m).
Proof.
  intros pw ps path fs content Ef. destruct (validate_cases pw ps path content fs Ef) as [(m & C & ->)|[N0 H]].
  - rewrite report_valid. split; [eauto|]. intros (m' & C' & P). now rewrite (contains_fun _ _ _ _ _ _ C C').
  - split; [|intros (m & C & _); destruct (N0 m C)]. destruct H as [->|[->| ->]]; intros H; repeat destruct H as [H|H]; try discriminate H; destruct H.
Qed.
Print Assumptions C104_valid.
(** What a node would take for a template is called valid. *)
Theorem C104_deployable :
  forall parse_wat parse stem fs message l rest content,
  dec_template None message = Ok (l, rest) -> template_code l = Some content -> validate_deploy parse message = Ok tt ->
  fs (stem ++ txt ".wasm") = Some content -> In LValid (fst (subcmd_validate parse_wat parse (stem ++ txt ".wasm") fs)).
Proof.
  intros pw ps stem fs message l rest content D T V Ef. apply (C104_valid pw ps _ fs content Ef). unfold validate_deploy in V. rewrite D, T in V.
  destruct (program_new (ps content) true) as [p|e|] eqn:New; try discriminate V. destruct (program_new_inv _ _ _ New) as (m & code & Em & _).
  exists m. split; [eapply contains_wasm; [reflexivity|exact Em]|]. rewrite Em in New. apply plain_program. unfold program_of. exists p. revert New. unfold program_new.
  destruct (m_code m) as [c|]; [|discriminate]. destruct (read_imports m) as [im|e|]; cbn [bind]; try discriminate. cbv zeta.
  destruct (validate_no_floats _); cbn [bind]; try discriminate. destruct (module_validate_exports m); cbn [bind]; try discriminate. auto.
Qed.
Print Assumptions C104_deployable.
(** The converse fails: modules without the exports that a node wants, and modules with
    indirect calls, are called valid and priced. *)
Definition indirect_module : wmodule := mkModule
  (Some [([ProgramModel.I32], [ProgramModel.I32]); ([], [ProgramModel.I32])]) None (Some [0; 1])
  (Some [(txt "svm_alloc", IntFunction 0); (txt "svm_verify", IntFunction 1)])
  (Some [[Op GetLocal; Op GetLocal; CallIndirect 0; End]; [Op I32Const; End]]).
Definition no_exports : wmodule := mkModule (Some [([], [])]) None (Some [0]) None (Some [[End]]).
Theorem C104_deployable_refuted :
  let claim := fun m => forall parse_wat parse path fs content message l rest prices,
    fs path = Some content -> parse content = Some m ->
    subcmd_validate parse_wat parse path fs = ([LValid; LPrices prices], Ok tt) ->
    dec_template None message = Ok (l, rest) -> template_code l = Some content -> validate_deploy parse message = Ok tt in
  ~ claim indirect_module /\ ~ claim no_exports.
Proof.
  cbv zeta. split; intros H.
  - assert (X := H (fun _ => None) (fun _ => Some indirect_module) (txt "a.wasm") (fun _ => Some [0; 97; 115; 109]) [0; 97; 115; 109]
      (match enc_sections ex_template with Some b => b | None => [] end) ex_template [] [(0, 3); (1, 1)] eq_refl eq_refl).
    specialize (X ltac:(vm_compute; reflexivity) ltac:(vm_compute; reflexivity) eq_refl). vm_compute in X. discriminate X.
  - assert (X := H (fun _ => None) (fun _ => Some no_exports) (txt "a.wasm") (fun _ => Some [0; 97; 115; 109]) [0; 97; 115; 109]
      (match enc_sections ex_template with Some b => b | None => [] end) ex_template [] [(0, 0)] eq_refl eq_refl).
    specialize (X ltac:(vm_compute; reflexivity) ltac:(vm_compute; reflexivity) eq_refl). vm_compute in X. discriminate X.
Qed.
Print Assumptions C104_deployable_refuted.
(** The prices that are shown: one line for each function of the module, in order, with the
    price that the nodes compute.  The module then has no loop in it, no function leads back to
    itself, and all imports that are called have a price. *)
Theorem C104_prices :
  forall parse_wat parse path fs content m prices,
  fs path = Some content -> contains parse_wat parse path content m -> closed_bodies m ->
  In (LPrices prices) (fst (subcmd_validate parse_wat parse path fs)) ->
  exists p pr, program_of m p /\ price_program p v0_resolver = Some pr /\
    map fst prices = map fst (p_functions p) /\ prices <> [] /\ (forall f v, In (f, v) prices -> ProgramModel.assoc f pr = Some v) /\
    (forall f, ~ occurs p f Loop) /\ acyclic (calls p) /\
    (forall f t im, occurs p f (Call t) -> nth_error (p_imports p) (N.to_nat t) = Some im -> has_price im).
Proof.
  intros pw ps path fs content m prices Ef C Cl H. destruct (validate_cases pw ps path content fs Ef) as [(m' & C' & E)|[N0 _]]; [|destruct (N0 m C)].
  rewrite (contains_fun _ _ _ _ _ _ C' C) in E. rewrite E in H. destruct (report_prices m prices H) as (p & pr & New & Pr & Sh & _).
  pose proof (show_prices_spec p _ pr _ _ New Pr) as S0. rewrite Sh in S0. destruct S0 as (Ne & Fst & L). exists p, pr. split; [exact New|].
  split; [now apply program_same|]. split; [exact Fst|]. split. { intros ->. destruct (p_functions p); [now apply Ne|discriminate Fst]. }
  split; [exact L|]. split. { intros f (body & I1 & I2). exact (priced_no_loop p _ pr m f body New Cl Pr I1 I2). }
  split; [exact (proj1 (price_program_spec p _ pr Pr))|]. intros f t im (body & I1 & I2) En. exact (priced_imports_known p pr m f body t im New Pr I1 I2 En).
Qed.
Print Assumptions C104_prices.
(** No execution of a function costs more than its line says.  Missing: control instructions
    cost nothing (see C35), and modules with indirect calls. *)
Theorem C104_bound_partial :
  forall parse_wat parse path fs content m prices p f v st is st',
  fs path = Some content -> contains parse_wat parse path content m -> closed_bodies m ->
  In (LPrices prices) (fst (subcmd_validate parse_wat parse path fs)) -> program_of m p -> (forall g t, ~ occurs p g (CallIndirect t)) ->
  In (f, v) prices -> enters p f st -> run p st is st' -> total_charge (charge p v0_resolver) is <= v.
Proof.
  intros pw ps path fs content m prices p f v st is st' Ef C Cl H New Ni I1 En R.
  destruct (C104_prices pw ps path fs content m prices Ef C Cl H) as (p' & pr & New' & Pr & _ & _ & L & Nl & _). unfold program_of in *. rewrite New in New'. injection New' as <-.
  destruct (execution_bounded p v0_resolver pr f st is st' (conj Nl Ni) Pr En R) as (v' & A & B). rewrite (L f v I1) in A. injection A as <-. exact B.
Qed.
Print Assumptions C104_bound_partial.
(** The tool aborts, after it called the file valid, when the module has a loop, a function
    that leads back to itself, no function at all, or calls an import without price. *)
Theorem C104_aborts :
  forall parse_wat parse path fs content m p,
  fs path = Some content -> contains parse_wat parse path content m -> closed_bodies m -> program_of m p ->
  (exists f, occurs p f Loop) \/ ~ acyclic (calls p) \/ p_functions p = [] \/
  (exists f t im, occurs p f (Call t) /\ nth_error (p_imports p) (N.to_nat t) = Some im /\ ~ has_price im) ->
  subcmd_validate parse_wat parse path fs = ([LValid], Panic).
Proof.
  intros pw ps path fs content m p Ef C Cl New Bad. destruct (validate_cases pw ps path content fs Ef) as [(m' & C' & E)|[N0 _]]; [|destruct (N0 m C)].
  rewrite (contains_fun _ _ _ _ _ _ C' C) in E. rewrite E. clear E. unfold program_of in New. unfold report. rewrite New.
  destruct (price_program p example_resolver) as [pr|] eqn:Pr; cbn [obind]; [|reflexivity]. destruct (show_prices pr) as [l|] eqn:Sh; [exfalso|reflexivity].
  pose proof (show_prices_spec p _ pr _ _ New Pr) as S0. rewrite Sh in S0. destruct S0 as (Ne & _ & _). destruct Bad as [(f & body & I1 & I2)|[Na|[E|(f & t & im & (body & I1 & I2) & En & Np)]]].
  - exact (priced_no_loop p _ pr m f body New Cl Pr I1 I2).
  - exact (Na (proj1 (price_program_spec p _ pr Pr))).
  - exact (Ne E).
  - exact (Np (priced_imports_known p pr m f body t im New Pr I1 I2 En)).
Qed.
Print Assumptions C104_aborts.
(** So there are templates that every node takes and that the tool cannot price: those that
    transfer coins. *)
Definition transferring : wmodule := mkModule
  (Some [([ProgramModel.I32], [ProgramModel.I32]); ([], [ProgramModel.I32]); ([ProgramModel.I32; ProgramModel.I32; ProgramModel.I64], [])])
  (Some [(txt "svm", txt "svm_transfer", ExtFunction 2)]) (Some [0; 1])
  (Some [(txt "svm_alloc", IntFunction 1); (txt "svm_verify", IntFunction 2)])
  (Some [[Op GetLocal; End]; [Op I32Const; Op I32Const; Op I64Const; Call 0; Op I32Const; End]]).
Theorem C104_priced_refuted :
  ~ (forall parse_wat parse stem fs message l rest content,
       dec_template None message = Ok (l, rest) -> template_code l = Some content -> validate_deploy parse message = Ok tt ->
       fs (stem ++ txt ".wasm") = Some content -> snd (subcmd_validate parse_wat parse (stem ++ txt ".wasm") fs) = Ok tt).
Proof.
  intros H. assert (X := H (fun _ => None) (fun _ => Some transferring) (txt "a") (fun _ => Some [0; 97; 115; 109])
    (match enc_sections ex_template with Some b => b | None => [] end) ex_template [] [0; 97; 115; 109]
    ltac:(vm_compute; reflexivity) eq_refl ltac:(vm_compute; reflexivity) eq_refl). vm_compute in X. discriminate X.
Qed.
Print Assumptions C104_priced_refuted.
(** The status of the tool does not tell a valid file from one that is refused. *)
Theorem C104_status_refuted :
  ~ (forall parse_wat parse path fs, snd (subcmd_validate parse_wat parse path fs) = Ok tt -> In LValid (fst (subcmd_validate parse_wat parse path fs))).
Proof.
  intros H. assert (X := H (fun _ => None) (fun _ => None) (txt "a.wasm") (fun _ => Some []) ltac:(vm_compute; reflexivity)). vm_compute in X.
  destruct X as [X|[]]. discriminate X.
Qed.
Print Assumptions C104_status_refuted.
Example C104_satisfiable :
  closed_bodies ex_module /\ program_of ex_module ex_program /\ contains (fun _ => None) (fun _ => Some ex_module) (txt "a.wasm") [1] ex_module /\
  subcmd_validate (fun _ => None) (fun _ => Some ex_module) (txt "a.wasm") (fun _ => Some [1]) = ([LValid; LPrices [(1, 3003); (2, 1)]], Ok tt) /\
  closed_bodies transferring /\ (exists f t im p, program_of transferring p /\ occurs p f (Call t) /\ nth_error (p_imports p) (N.to_nat t) = Some im /\ ~ has_price im).
Proof.
  split. { intros body I1. cbn in I1. repeat destruct I1 as [<-|I1]; try reflexivity. destruct I1. }
  split; [vm_compute; reflexivity|]. split; [apply (contains_wasm _ _ _ _ _ (txt "a")); reflexivity|]. split; [vm_compute; reflexivity|].
  split. { intros body I1. cbn in I1. repeat destruct I1 as [<-|I1]; try reflexivity. destruct I1. }
  exists 2, 0, (txt "svm", txt "svm_transfer"). eexists. split; [vm_compute; reflexivity|]. split.
  - eexists. split; [right; left; reflexivity|]. cbn. tauto.
  - split; [reflexivity|]. intros (s & I1 & E). cbn [priced_imports In] in I1. repeat destruct I1 as [<-|I1]; try discriminate E. destruct I1.
Qed.
