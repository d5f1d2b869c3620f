(** Reading definition files. *)
From Coq Require Import String Ascii List ZArith Bool Lia.
From Verif Require Import Base Ieee Yaml DataTypes Reader Validator SpecReader DemoYaml ReaderProofs ReaderTotal ReadFileProofs ReaderRefs ReaderErrors ReaderFindings.
Import ListNotations.
Open Scope string_scope.
Open Scope list_scope.
Open Scope Z_scope.

(** C36. Whatever the file contains and however reading it ends, every definition registered is well formed. *)
Theorem C36_well_formed : forall env f out r,
  read_file env rreg_empty f = (out, r) -> Forall well_formed (registered r).
Proof. exact ReadFileProofs.file_well_formed. Qed.
Print Assumptions C36_well_formed.

Definition r_docs : list yval :=
  [y_uint8; y_uint32;
   y_struct "point" [y_member "x" "UINT32"; y_member "y" "BYTE";
     doc [("name", Y "data"); ("type", Y "stream"); ("element_data_type", Y "BYTE");
          ("elements_data_size", Y "point.y * 2")]];
   doc [("name", Y "broken"); ("type", Y "integer"); ("attributes", doc [("size", YInt 3)])]].

(** Three definitions are registered, the fourth document has a bad size. *)
Example C36_example : exists r,
  read_file demo_env rreg_empty (Some (r_docs, YEnd)) = (Raise FormatError, r) /\
  map rd_name (registered r) = [Y "uint8"; Y "uint32"; Y "point"].
Proof. eexists. split; [vm_compute; reflexivity|]. vm_compute. reflexivity. Qed.

(** C36. Negative numbers of elements and empty data sizes are accepted. *)
Theorem C36_negative_number_refuted : exists env docs r e1 e2 k1 k2 x1 x2,
  read_file env rreg_empty (Some (docs, YEnd)) = (Ok tt, r)
  /\ skipn 1 (registered r) = [RElems k1 e1 x1; RElems k2 e2 x2]
  /\ re_number e1 = Some (-1) /\ re_data_size e2 = Some 0.
Proof. exact ReaderFindings.negative_number_refuted. Qed.
Print Assumptions C36_negative_number_refuted.

(** C36. A structure with a section needs no members. *)
Theorem C36_section_only_refuted : exists env docs r m bo ss,
  read_file env rreg_empty (Some (docs, YEnd)) = (Ok tt, r)
  /\ registered r = [RStructure m bo ss []].
Proof. exact ReaderFindings.section_only_refuted. Qed.
Print Assumptions C36_section_only_refuted.

(** C36. The base of a structure group need not be a structure. *)
Theorem C36_group_base_refuted : exists env docs r m bo base f fmt i ms,
  read_file env rreg_empty (Some (docs, YEnd)) = (Ok tt, r)
  /\ In (RGroup m bo base i None ms) (registered r) /\ base = RInteger f fmt.
Proof. exact ReaderFindings.group_base_refuted. Qed.
Print Assumptions C36_group_base_refuted.

(** C36. The size true is accepted and counts as 1. *)
Theorem C36_size_true_refuted : exists env docs r f fmt,
  read_file env rreg_empty (Some (docs, YEnd)) = (Ok tt, r)
  /\ registered r = [RInteger f fmt] /\ rf_size f = YBool true.
Proof. exact ReaderFindings.size_true_refuted. Qed.
Print Assumptions C36_size_true_refuted.

(** C36. The layout of a format may name a data type that does not exist. *)
Theorem C36_layout_refuted : exists env docs r m bo n o md,
  read_file env rreg_empty (Some (docs, YEnd)) = (Ok tt, r)
  /\ registered r = [RFormat m bo [(n, o)] md]
  /\ forall d, In d (registered r) -> ~ names_definition env n d.
Proof. exact ReaderFindings.layout_refuted. Qed.
Print Assumptions C36_layout_refuted.

(** C37. The documents whose definitions are registered only have supported keys, in their members and attributes as well. *)
Theorem C37_supported_keys : forall env r docs e out r',
  read_file env r (Some (docs, e)) = (out, r') ->
  exists n ds, registered r' = registered r ++ ds
  /\ Forall2 (fun doc d => entry doc "name" (rd_name d)) (firstn n docs) ds
  /\ Forall document_supported (firstn n docs).
Proof. exact ReaderRefs.registered_supported. Qed.
Print Assumptions C37_supported_keys.

Example C37_example : exists r,
  read_file demo_env rreg_empty (Some ([y_uint8; y_struct "s" [doc [("name", Y "x"); ("data_type", Y "uint8"); ("size", YInt 1)]]], YEnd))
    = (Raise FormatError, r) /\
  map rd_name (registered r) = [Y "uint8"].
Proof. eexists. split; [vm_compute; reflexivity|]. vm_compute. reflexivity. Qed.

(** C37. A document with an unsupported key ends the reading and changes nothing. *)
Theorem C37_unsupported_stops : forall env r doc rest e,
  ~ document_supported doc ->
  exists x, read_file env r (Some (doc :: rest, e)) = (Raise x, r).
Proof. exact ReaderRefs.unsupported_stops. Qed.
Print Assumptions C37_unsupported_stops.

Example C37_unsupported_example : ~ document_supported (doc [("name", Y "x"); ("type", Y "uuid"); ("format", Y "signed")]).
Proof.
  intros [t [[l [E M]] [[l' [E' F]] _]]]. injection E as <-. injection E' as <-.
  cbn in M. injection M as M. inversion F as [|? ? _ F1]. inversion F1 as [|? ? _ F2].
  inversion F2 as [|? ? [s [Q I]] _]. subst. apply Y_inj in Q. subst s.
  assert (T : t = "uuid"%string) by (symmetry; apply us_inj; exact M). subst t.
  cbn in I. intuition discriminate.
Qed.

(** C37. Keys beside the key section are not checked. *)
Theorem C37_section_refuted : exists env docs v r,
  read_file env rreg_empty (Some (docs, YEnd)) = (Ok tt, r)
  /\ docs = [doc [("name", Y "s"); ("type", Y "structure"); ("members", YList [v])]]
  /\ entry v "no_such_key" (YInt 1).
Proof. exact ReaderFindings.section_keys_refuted. Qed.
Print Assumptions C37_section_refuted.

(** C37. Keys of the values of an enumeration are not checked. *)
Theorem C37_enumeration_refuted : exists env docs v r,
  read_file env rreg_empty (Some (docs, YEnd)) = (Ok tt, r)
  /\ docs = [doc [("name", Y "e"); ("type", Y "enumeration"); ("values", YList [v])]]
  /\ entry v "no_such_key" (YInt 1).
Proof. exact ReaderFindings.enum_keys_refuted. Qed.
Print Assumptions C37_enumeration_refuted.

(** C38. Reading registers the definitions of the documents in order up to the first that fails, keeps them, and ignores what follows. *)
Theorem C38_prefix : forall env r docs e out r',
  read_file env r (Some (docs, e)) = (out, r') ->
  exists n ds,
    (n <= List.length docs)%nat
    /\ registered r' = registered r ++ ds
    /\ Forall2 (fun doc d => entry doc "name" (rd_name d)) (firstn n docs) ds
    /\ read_file env r (Some (firstn n docs, YEnd)) = (Ok tt, r')
    /\ ((n < List.length docs)%nat ->
        exists x, out = Raise x
        /\ forall rest e', read_file env r (Some (firstn (S n) docs ++ rest, e')) = (out, r'))
    /\ (n = List.length docs ->
        match e with
        | YEnd => out = Ok tt
        | YScan => exists x, out = Raise x
        | YFail x => out = Raise x
        end).
Proof. exact ReadFileProofs.reading_prefix. Qed.
Print Assumptions C38_prefix.

Example C38_example : exists r,
  read_file demo_env rreg_empty (Some (y_file ++ y_file, YScan)) = (Raise KeyError, r) /\
  read_file demo_env rreg_empty (Some (y_file, YEnd)) = (Ok tt, r) /\
  map rd_name (registered r) = [Y "uint8"; Y "uint32"; Y "data"].
Proof.
  eexists. split; [vm_compute; reflexivity|]. split; [vm_compute; reflexivity|]. vm_compute. reflexivity.
Qed.

(** C38. Reading a file after a file that was read without error is reading both as one. *)
Theorem C38_concatenation : forall env r a b e r1,
  read_file env r (Some (a, YEnd)) = (Ok tt, r1) ->
  (b <> [] \/ e <> YScan) ->
  read_file env r (Some (a ++ b, e)) = read_file env r1 (Some (b, e)).
Proof. exact ReadFileProofs.reading_concatenation. Qed.
Print Assumptions C38_concatenation.

Example C38_concatenation_example : exists r r2,
  read_file demo_env rreg_empty (Some (y_file, YEnd)) = (Ok tt, r) /\
  read_file demo_env rreg_empty (Some (y_file ++ [y_struct "p" [y_member "x" "BYTE"]], YEnd)) = (Ok tt, r2) /\
  read_file demo_env r (Some ([y_struct "p" [y_member "x" "BYTE"]], YEnd)) = (Ok tt, r2).
Proof.
  do 2 eexists. split; [vm_compute; reflexivity|]. split; [vm_compute; reflexivity|]. vm_compute. reflexivity.
Qed.

(** C38. A file with a failing document reads the same whatever follows it. *)
Theorem C38_stops : forall env r a b e e' x r1,
  read_file env r (Some (a, YEnd)) = (Raise x, r1) ->
  read_file env r (Some (a ++ b, e)) = (Raise x, r1)
  /\ read_file env r (Some (a, e')) = (Raise x, r1).
Proof. exact ReadFileProofs.reading_stops. Qed.
Print Assumptions C38_stops.

Example C38_stops_example : exists r,
  read_file demo_env rreg_empty (Some ([y_uint8; y_point], YEnd)) = (Raise FormatError, r).
Proof. eexists. vm_compute. reflexivity. Qed.

(** C39. Every name a registered definition refers to was resolved to a definition registered before it that has the name or alias. *)
Theorem C39_references : forall env docs e out r,
  read_file env rreg_empty (Some (docs, e)) = (out, r) ->
  forall i d, nth_error (registered r) i = Some d ->
    exists doc, nth_error docs i = Some doc
    /\ resolved env (firstn i (registered r)) doc d.
Proof. exact ReaderRefs.references_resolved. Qed.
Print Assumptions C39_references.

Example C39_example : exists r,
  read_file demo_env rreg_empty (Some ([y_uint8; y_bytes; doc [("name", Y "many"); ("type", Y "sequence"); ("element_data_type", Y "DATA"); ("number_of_elements", YInt 2)]], YEnd)) = (Ok tt, r) /\
  exists d1 d2 d3 e2 e3, registered r = [d1; d2; d3] /\ d2 = RElems KStream e2 d1 /\ d3 = RElems KSequence e3 d2.
Proof.
  eexists. split; [vm_compute; reflexivity|]. do 5 eexists. split; [reflexivity|]. split; reflexivity.
Qed.

(** C39. A reference that no earlier definition answers to, for instance a forward or self reference, makes reading fail with FormatError. *)
Theorem C39_unresolved : forall env prior r doc rest e,
  Forall tidy_document prior -> tidy_document doc ->
  ~ entry doc "type" (Y "structure-group") ->
  read_file env rreg_empty (Some (prior, YEnd)) = (Ok tt, r) ->
  (forall d, ~ resolved env (registered r) doc d) ->
  read_file env rreg_empty (Some (prior ++ doc :: rest, e)) = (Raise FormatError, r).
Proof. exact ReaderErrors.unresolved_format_error. Qed.
Print Assumptions C39_unresolved.

Ltac tidy_tac :=
  repeat match goal with
  | |- Forall _ _ => constructor
  | |- tidy_document _ => constructor
  | |- tidy_elements _ => split
  | |- tidy_attributes _ => split
  | |- forall t : string, _ => intros t
  | |- optional _ _ _ => intros x [l [E M]]; injection E as <-; vm_compute in M; try discriminate M; injection M as <-; right
  | |- forall x, entry _ _ x -> _ => intros x [l [E M]]; injection E as <-; vm_compute in M; try discriminate M; injection M as <-
  | |- entry _ _ _ -> _ => intros [? [E0 M0]]; injection E0 as <-; vm_compute in M0; try discriminate M0
  | |- _ /\ _ => split
  | |- text_keys _ => eexists; split; [reflexivity|]
  | |- text _ => eexists; reflexivity
  | |- texts _ => eexists; split; [reflexivity|]
  | |- number_or_text (YInt _) => left; eexists; reflexivity
  | |- number_or_text _ => right; eexists; reflexivity
  end.

(** A sequence of itself. *)
Definition r_self : yval :=
  doc [("name", Y "me"); ("type", Y "sequence"); ("element_data_type", Y "me"); ("number_of_elements", YInt 2)].

Lemma r_self_unresolved : forall d, ~ resolved demo_env [] r_self d.
Proof.
  intros d H. remember r_self as v eqn:V. remember (@nil rdef) as p eqn:Pr. revert V Pr.
  induction H; intros -> ->; repeat match goal with
  | E : entry r_self _ _ |- _ => destruct E as [? [? E]]
  | Q : r_self = YMap _ |- _ => injection Q as <-
  | M : map_get _ _ = Some _ |- _ => vm_compute in M
  end; try discriminate; try contradiction; try (apply IHresolved; reflexivity).
  destruct d; try contradiction; vm_compute in *; discriminate.
Qed.

Example C39_unresolved_example : exists r,
  Forall tidy_document [] /\ tidy_document r_self /\ ~ entry r_self "type" (Y "structure-group") /\
  read_file demo_env rreg_empty (Some ([], YEnd)) = (Ok tt, r) /\
  (forall d, ~ resolved demo_env (registered r) r_self d) /\
  (exists r', read_file demo_env rreg_empty (Some ([r_self], YEnd)) = (Raise FormatError, r')).
Proof.
  exists rreg_empty. split; [constructor|]. split.
  - tidy_tac.
  - split; [intros [l [E M]]; injection E as <-; vm_compute in M; discriminate M|].
    split; [reflexivity|]. split; [exact r_self_unresolved|]. eexists. vm_compute. reflexivity.
Qed.

(** C39. The same for any document, with any exception. *)
Theorem C39_unresolved_any : forall env r doc rest e prior out,
  read_file env rreg_empty (Some (prior, YEnd)) = (out, r) ->
  (forall d, ~ resolved env (registered r) doc d) ->
  exists x, read_file env r (Some (doc :: rest, e)) = (Raise x, r).
Proof. exact ReaderRefs.unresolved_stops. Qed.
Print Assumptions C39_unresolved_any.

(** C41. Checking a file returns True if and only if reading it into an empty registry succeeds, False if and only if that raises FormatError or KeyError; other exceptions escape. *)
Theorem C41_file : forall env f,
  (check_file env f = Ok true <-> fst (read_file env rreg_empty f) = Ok tt)
  /\ (check_file env f = Ok false <->
      fst (read_file env rreg_empty f) = Raise FormatError
      \/ fst (read_file env rreg_empty f) = Raise KeyError)
  /\ (forall x, check_file env f = Raise x <->
      fst (read_file env rreg_empty f) = Raise x /\ x <> FormatError /\ x <> KeyError).
Proof. exact ReadFileProofs.validator_file. Qed.
Print Assumptions C41_file.

Example C41_example :
  check_file demo_env (Some (y_file, YEnd)) = Ok true /\ check_file demo_env (Some ([y_point], YEnd)) = Ok false /\
  check_file demo_env (Some ([y_uint8; y_uint8], YEnd)) = Ok false /\ check_file demo_env None = Raise IOError.
Proof. repeat split; vm_compute; reflexivity. Qed.

(** C41. Checking a directory returns True if and only if every file checks, and a file that fails does not keep the others from being checked unless it raises another exception. *)
Theorem C41_directory : forall env files,
  (check_directory env files = Ok true <->
     forall f, In f files -> check_file env f = Ok true)
  /\ (check_directory env files = Ok false <->
     (forall f, In f files -> exists ok, check_file env f = Ok ok)
     /\ exists f, In f files /\ check_file env f = Ok false)
  /\ (forall x, check_directory env files = Raise x <->
     exists before f after, files = before ++ f :: after
     /\ (forall g, In g before -> exists ok, check_file env g = Ok ok)
     /\ check_file env f = Raise x).
Proof. exact ReadFileProofs.validator_directory. Qed.
Print Assumptions C41_directory.

Example C41_directory_example :
  check_directory demo_env [Some (y_file, YEnd); Some ([y_point], YEnd); Some (y_file, YEnd)] = Ok false /\
  check_directory demo_env [Some (y_file, YEnd); Some (y_file, YEnd)] = Ok true.
Proof. repeat split; vm_compute; reflexivity. Qed.

(** C41. A document that is plain text aborts the check of the directory. *)
Theorem C41_abort_refuted : exists env f g,
  check_file env g = Ok true
  /\ f = Some ([Y "just text"], YEnd)
  /\ check_directory env [f; g] = Raise AttributeError.
Proof. exact ReaderFindings.directory_abort_refuted. Qed.
Print Assumptions C41_abort_refuted.

(** C45. A file of well-typed documents only raises FormatError and KeyError, or AttributeError if a structure group lists a definition without members. *)
Theorem C45_errors : forall env docs e x r,
  Forall tidy_document docs -> (e = YEnd \/ e = YScan) ->
  read_file env rreg_empty (Some (docs, e)) = (Raise x, r) ->
  x = FormatError \/ x = KeyError \/
  (x = AttributeError /\ exists doc l name d,
     In doc docs /\ entry doc "type" (Y "structure-group") /\ items doc "members" l
     /\ In name l /\ In d (registered r) /\ names_definition env name d
     /\ rd_members d = None).
Proof. exact ReaderErrors.tidy_errors. Qed.
Print Assumptions C45_errors.

Example C45_example : exists r,
  Forall tidy_document [y_uint8; y_bytes; r_self] /\
  read_file demo_env rreg_empty (Some ([y_uint8; y_bytes; r_self], YEnd)) = (Raise FormatError, r).
Proof.
  eexists. split; [|vm_compute; reflexivity]. tidy_tac.
Qed.

(** C45. A structure group that lists an integer raises AttributeError. *)
Theorem C45_group_refuted : exists env docs r,
  read_file env rreg_empty (Some (docs, YEnd)) = (Raise AttributeError, r)
  /\ docs = [y_uint8; y_struct "p" [y_member "x" "uint8"]; y_group "p" "uint8"].
Proof. exact ReaderFindings.group_member_refuted. Qed.
Print Assumptions C45_group_refuted.

(** C45. A terminator that is no ASCII text raises UnicodeError. *)
Theorem C45_terminator_refuted : exists env docs r t,
  read_file env rreg_empty (Some (docs, YEnd)) = (Raise UnicodeError, r)
  /\ docs = [y_uint8; doc [("name", Y "s"); ("type", Y "stream");
       ("element_data_type", Y "uint8"); ("elements_terminator", YStr t)]].
Proof. exact ReaderFindings.terminator_encoding_refuted. Qed.
Print Assumptions C45_terminator_refuted.

(** C45. Reading always ends: the fuel of the model for nested unions suffices. *)
Theorem C45_reading_ends : forall env docs r last e,
  fst (read_docs env r last docs e) <> OutOfFuel.
Proof. exact ReaderTotal.read_docs_total. Qed.
Print Assumptions C45_reading_ends.
