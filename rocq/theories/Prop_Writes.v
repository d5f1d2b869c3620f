(** C67 and C68: folding is the reference writing, and what it raises otherwise. *)
From Coq Require Import String Ascii List ZArith Bool Lia.
From Verif Require Import Base PyVal PyStruct DataTypes ClassFactory DataMaps Demo DemoProofs SpecPrim SpecMap SpecCreate SpecFold SpecWrites WritesProofs WritesWitness.
Import ListNotations.
Open Scope string_scope.
Open Scope list_scope.
Open Scope Z_scope.

(** C67. Folding gives bytes exactly if the definition describes them for the value. *)
Theorem C67_writing : forall orc d m v c b,
  extensional orc -> everywhere sound d -> create orc d None = Ok (Some m) -> proper v -> clean c ->
  (fst (foldbs orc m v c) = Ok (VBytes b) <-> writes orc d (ctx_values c) v b).
Proof. exact WritesProofs.folding_writes. Qed.
Print Assumptions C67_writing.

(** A note with nothing extra, an integer for the ratio, True for a number and a name without its terminator. *)
Example C67_example_writing :
  extensional demo /\ everywhere sound d_note /\ create demo d_note None = Ok (Some (the_map d_note)) /\ proper note_value /\
  writes demo d_note [] note_value note_bytes /\
  fst (foldbs demo (the_map d_note) note_value None) = Ok (VBytes note_bytes) /\
  note_bytes = bs [2; 0; 0; 128; 63; 7; 8; 1; 0; 1; 0; 104; 105; 0].
Proof.
  split; [exact extensional_demo|]. split; [exact note_sound|]. split; [exact note_created|]. split; [exact note_proper|].
  split; [exact note_writes|]. split; vm_compute; reflexivity.
Qed.

(** C67. A definition describes no more than one byte string for a value. *)
Theorem C67_unique : forall orc d m vals v b1 b2,
  extensional orc -> everywhere sound d -> create orc d None = Ok (Some m) -> proper v ->
  writes orc d vals v b1 -> writes orc d vals v b2 -> b1 = b2.
Proof. exact WritesProofs.writing_unique. Qed.
Print Assumptions C67_unique.

Example C67_example_unique : forall b, writes demo d_note [] note_value b -> b = note_bytes.
Proof.
  intros b W. exact (C67_unique demo d_note (the_map d_note) [] note_value b note_bytes extensional_demo note_sound note_created
    note_proper W note_writes).
Qed.

(** C68. Folding raises FoldingError, or MappingError if the definition has size expressions. *)
Theorem C68_errors : forall orc d m v c e,
  extensional orc -> everywhere sound d -> create orc d None = Ok (Some m) -> proper v -> clean c -> blobs d v ->
  fst (foldbs orc m v c) = Raise e -> e = FoldingError \/ (e = MappingError /\ ~ everywhere fixed_sizes d).
Proof. exact WritesProofs.folding_errors. Qed.
Print Assumptions C68_errors.

(** Too few bytes of data, and no size for them. *)
Example C68_example_errors :
  extensional demo /\ everywhere sound d_note /\ create demo d_note None = Ok (Some (the_map d_note)) /\
  proper note_short /\ blobs d_note note_short /\ proper note_sizeless /\ blobs d_note note_sizeless /\
  fst (foldbs demo (the_map d_note) note_short None) = Raise FoldingError /\
  fst (foldbs demo (the_map d_note) note_sizeless None) = Raise MappingError.
Proof.
  split; [exact extensional_demo|]. split; [exact note_sound|]. split; [exact note_created|]. split; [cbn; tauto|].
  split; [cbn; repeat split; auto; right; eexists; reflexivity|]. split; [cbn; tauto|].
  split; [cbn; repeat split; auto; right; eexists; reflexivity|]. split; vm_compute; reflexivity.
Qed.

(** C68. Without size expressions, sequences that are read element by element and UUIDs in native byte order, folding gives the bytes or raises FoldingError. *)
Theorem C68_otherwise : forall orc d m v c,
  extensional orc -> everywhere sound d -> create orc d None = Ok (Some m) -> proper v -> clean c -> blobs d v ->
  everywhere writable d -> everywhere fixed_sizes d ->
  (exists b, writes orc d (ctx_values c) v b /\ fst (foldbs orc m v c) = Ok (VBytes b)) \/
  ((forall b, ~ writes orc d (ctx_values c) v b) /\ fst (foldbs orc m v c) = Raise FoldingError).
Proof. exact WritesProofs.folding_otherwise. Qed.
Print Assumptions C68_otherwise.

Example C68_example_otherwise :
  extensional demo /\ everywhere sound d_card /\ create demo d_card None = Ok (Some (the_map d_card)) /\
  everywhere writable d_card /\ everywhere fixed_sizes d_card /\
  writes demo d_card [] (card_value (VBytes (bs [7; 8]))) (bs [2; 7; 8; 1; 0; 2; 1]) /\
  fst (foldbs demo (the_map d_card) (card_value (VBytes (bs [7]))) None) = Raise FoldingError.
Proof.
  split; [exact extensional_demo|]. split; [exact card_sound|]. split; [exact card_created|]. split; [apply card_writable|].
  split; [apply card_writable|]. split; [exact card_writes|]. vm_compute; reflexivity.
Qed.

(** C68. A stream that is a number raises TypeError. *)
Theorem C68_stream_refuted : exists d m v,
  everywhere sound d /\ everywhere writable d /\ everywhere fixed_sizes d /\ create demo d None = Ok (Some m) /\ proper v /\
  fst (foldbs demo m v None) = Raise TypeError.
Proof. exact WritesWitness.folding_stream_refuted. Qed.
Print Assumptions C68_stream_refuted.

(** C68. Padding that is a number raises TypeError. *)
Theorem C68_padding_refuted : exists d m v,
  everywhere sound d /\ everywhere writable d /\ everywhere fixed_sizes d /\ create demo d None = Ok (Some m) /\ proper v /\
  fst (foldbs demo m v None) = Raise TypeError.
Proof. exact WritesWitness.folding_padding_refuted. Qed.
Print Assumptions C68_padding_refuted.

(** C68. A tuple of as many values as a stream has bytes is returned instead of bytes. *)
Theorem C68_tuple_refuted : exists d m l,
  everywhere sound d /\ everywhere writable d /\ everywhere fixed_sizes d /\ create demo d None = Ok (Some m) /\ proper (VTuple l) /\
  fst (foldbs demo m (VTuple l) None) = Ok (VTuple l).
Proof. exact WritesWitness.folding_tuple_refuted. Qed.
Print Assumptions C68_tuple_refuted.
