(** Properties of fixed-size definitions, streams and strings. *)
From Coq Require Import String Ascii List ZArith Bool Lia.
From Verif Require Import Base Ieee PyVal PyStruct DataTypes ClassFactory DataMaps SpecPrim Demo SpecMap SpecCreate SpecAttributes DemoProofs AttributeProofs StreamProofs FixedProofs.
Import ListNotations.
Open Scope string_scope.
Open Scope list_scope.
Open Scope Z_scope.

(** C08. Fixed-size definitions raise ByteStreamTooSmallError exactly when too few bytes remain. *)
Theorem C08_too_small : forall orc fuel d m n bs off vals depth,
  everywhere sound d -> create orc d None = Ok (Some m) -> flat m ->
  get_byte_size d = Some n -> 0 <= off ->
  (fails orc fuel m bs off vals depth ByteStreamTooSmallError <-> len bs - off < n).
Proof. exact FixedProofs.fixed_too_small. Qed.
Print Assumptions C08_too_small.

Definition s_two : dtype := DStructure (meta_of "s") BOLittle [member "a" d_uint16; member "b" d_uint32].

Example C08_example :
  everywhere sound s_two /\ flat (the_map s_two) /\ get_byte_size s_two = Some 6 /\
  run s_two (bs [1; 2; 3; 4; 5; 6]) 1 = (Raise ByteStreamTooSmallError, None) /\
  fst (run s_two (bs [1; 2; 3; 4; 5; 6]) 0) = Ok (VStruct "s" [("a", VInt 513); ("b", VInt 100992003)]).
Proof.
  split; [|split; [|split; [|split]]]; [|vm_compute; exact I|vm_compute; reflexivity|vm_compute; reflexivity|vm_compute; reflexivity].
  cbn [everywhere s_two member]. repeat split; try (intros n H; inversion H; reflexivity).
  - intros m1 m2 [<-|[<-|[]]] [<-|[<-|[]]] H; vm_compute in H |- *; congruence.
  - intros m r [<-|[<-|[]]] H; discriminate.
Qed.

(** C19. A stream with a data size or a number of elements returns exactly that many bytes. *)
Theorem C19_sized : forall orc fuel e ed em bs off vals depth,
  0 <= off -> (forall b, get_byte_size ed = Some b -> 0 <= b) ->
  ~ open_ended e ed ->
  let m := MStream e ed em in
  (forall v n, maps orc fuel m bs off vals depth v n <->
     stream_extent orc e ed vals n /\ off + n <= len bs /\ v = VBytes (window bs off n)) /\
  (fails orc fuel m bs off vals depth ByteStreamTooSmallError <->
     exists n, stream_extent orc e ed vals n /\ len bs < off + n) /\
  (fails orc fuel m bs off vals depth MappingError <-> forall n, ~ stream_extent orc e ed vals n) /\
  (forall x, fails orc fuel m bs off vals depth x -> x = ByteStreamTooSmallError \/ x = MappingError).
Proof. exact AttributeProofs.stream_given. Qed.
Print Assumptions C19_sized.

Example C19_example_sized :
  let e := elems_number "t" d_uint16 2 in
  ~ open_ended e d_uint16 /\ stream_extent demo e d_uint16 [] 4 /\
  run (DElems KStream e d_uint16) (bs [1; 2; 3; 4; 5]) 1 = (Ok (VBytes (bs [2; 3; 4; 5])), Some 4) /\
  run (DElems KStream e d_uint16) (bs [1; 2; 3; 4; 5]) 2 = (Raise ByteStreamTooSmallError, None).
Proof.
  split; [|split; [|split; vm_compute; reflexivity]].
  - intros [_ [H|H]]; [apply H; left|]; discriminate.
  - right. split; [intros [H|H]; now apply H|]. exists 2, 2. split; auto. split; [|reflexivity]. left. cbn. repeat split; discriminate.
Qed.

(** C19. A terminated stream returns the shortest run of whole elements that ends in the terminator. *)
Theorem C19_terminated : forall orc fuel e ed em t bs off vals depth,
  0 <= off -> open_ended e ed -> e_terminator e = Some (VBytes t) ->
  get_byte_size ed = Some (len t) -> 0 < len t ->
  let m := MStream e ed em in
  (forall v n, maps orc fuel m bs off vals depth v n <->
     exists k, first_at t bs off k /\ n = (k + 1) * len t /\ v = VBytes (window bs off n)) /\
  (fails orc fuel m bs off vals depth ByteStreamTooSmallError <-> forall k, ~ first_at t bs off k) /\
  (forall x, fails orc fuel m bs off vals depth x -> x = ByteStreamTooSmallError).
Proof. exact AttributeProofs.stream_until. Qed.
Print Assumptions C19_terminated.

(** The zero bytes at odd positions do not count. *)
Example C19_example_terminated :
  let t := bs [0; 0] in
  let e := elems_term "t" d_uint16 (VBytes t) in
  open_ended e d_uint16 /\ get_byte_size d_uint16 = Some (len t) /\ 0 < len t /\
  run (DElems KStream e d_uint16) (bs [1; 0; 0; 2; 0; 0; 9; 9]) 0 = (Ok (VBytes (bs [1; 0; 0; 2; 0; 0])), Some 6) /\
  run (DElems KStream e d_uint16) (bs [1; 0; 0; 2; 3; 0; 0; 9]) 0 = (Raise ByteStreamTooSmallError, None).
Proof.
  cbn zeta. split; [split; [intros [H|H]; now apply H|left; intros [H|H]; now apply H]|].
  split; [reflexivity|]. split; [reflexivity|]. split; vm_compute; reflexivity.
Qed.

(** C20. A string is the decoding of the stream bytes cut before the first terminator. *)
Theorem C20_string : forall orc fuel e ed em bs off vals depth,
  byte_terminator (e_terminator e) ->
  let m := MString e ed em in
  let st := MStream e ed em in
  (forall v n, maps orc fuel m bs off vals depth v n <->
     exists l r s, maps orc fuel st bs off vals depth (VBytes l) n /\
       text_part (e_terminator e) l r /\
       o_decode orc (e_encoding e) r = Some s /\ v = VStr s) /\
  (forall x, fails orc fuel m bs off vals depth x <->
     fails orc fuel st bs off vals depth x \/
     (x = MappingError /\ exists l r n, maps orc fuel st bs off vals depth (VBytes l) n /\
        text_part (e_terminator e) l r /\
        o_decode orc (e_encoding e) r = None)).
Proof. exact StreamProofs.string_layout. Qed.
Print Assumptions C20_string.

Example C20_example :
  let e := mkElems (meta_of "t") BOLittle (Some 6) None (Some "char") (Some (VBytes (bs [0]))) None None "utf8" in
  byte_terminator (e_terminator e) /\ cut_at (bs [0]) (bs [72; 105; 0; 33; 0; 0]) (bs [72; 105]) /\
  run (DElems KString e d_char) (bs [72; 105; 0; 33; 0; 0]) 0 = (Ok (VStr [72; 105]), Some 6) /\
  run (DElems KString e d_char) (bs [255; 105; 0; 33; 0; 0]) 0 = (Raise MappingError, Some 6).
Proof.
  split; [|split; [|split; vm_compute; reflexivity]].
  - exists (bs [0]). split; reflexivity.
  - left. exists 2. split; [|reflexivity]. split; [discriminate|]. split; [reflexivity|].
    intros j H. assert (j = 0 \/ j = 1) as [-> | ->] by (clear - H; lia); discriminate.
Qed.

(** C21. Folding a sized stream returns the value if it has the size and raises FoldingError if it has another one. *)
Theorem C21_stream_fold_sized : forall orc e ed em vals b,
  ~ open_ended e ed ->
  let m := MStream e ed em in
  (forall r, folds orc m (VBytes b) vals r <-> stream_extent orc e ed vals (len b) /\ r = b) /\
  (fold_fails orc m (VBytes b) vals FoldingError <-> exists n, stream_extent orc e ed vals n /\ n <> len b).
Proof. exact AttributeProofs.stream_fold_given. Qed.
Print Assumptions C21_stream_fold_sized.

Example C21_example_fold_sized :
  let e := elems_size "t" d_uint8 2 in
  ~ open_ended e d_uint8 /\
  fst (foldbs demo (the_map (DElems KStream e d_uint8)) (VBytes (bs [1; 2])) None) = Ok (VBytes (bs [1; 2])) /\
  fst (foldbs demo (the_map (DElems KStream e d_uint8)) (VBytes (bs [1])) None) = Raise FoldingError.
Proof. split; [|split; vm_compute; reflexivity]. intros [H _]. apply H. left. discriminate. Qed.

(** C21. Folding a terminated stream adds the terminator unless the value ends in it. *)
Theorem C21_stream_fold_terminated : forall orc e ed em t vals b,
  unsized_stream e ed -> e_terminator e = Some (VBytes t) -> 0 < len t ->
  forall r, folds orc (MStream e ed em) (VBytes b) vals r <->
    ((exists p, b = p ++ t) /\ r = b) \/ ((forall p, b <> p ++ t) /\ r = b ++ t).
Proof. exact StreamProofs.stream_fold_terminated. Qed.
Print Assumptions C21_stream_fold_terminated.

Example C21_example_fold_terminated :
  let e := elems_term "t" d_uint8 (VBytes (bs [0])) in
  unsized_stream e d_uint8 /\
  fst (foldbs demo (the_map (DElems KStream e d_uint8)) (VBytes (bs [1; 2])) None) = Ok (VBytes (bs [1; 2; 0])) /\
  fst (foldbs demo (the_map (DElems KStream e d_uint8)) (VBytes (bs [1; 0])) None) = Ok (VBytes (bs [1; 0])).
Proof. split; [|split; vm_compute; reflexivity]. split; auto. Qed.

(** C21. Mapping the fold of a stream value, anywhere inside other bytes, returns the folded bytes: the value, with the terminator if it was missing. *)
Theorem C21_stream_fold_map : forall orc fuel e ed em vals b r pre post depth,
  (forall n, get_byte_size ed = Some n -> 0 < n) ->
  (unsized_stream e ed -> exists t k, e_terminator e = Some (VBytes t) /\
     get_byte_size ed = Some (len t) /\ len b = k * len t /\ forall j, j < k - 1 -> ~ first_at t b 0 j) ->
  let m := MStream e ed em in
  folds orc m (VBytes b) vals r ->
  maps orc fuel m (pre ++ r ++ post) (len pre) vals depth (VBytes r) (len r) /\
  (r = b \/ exists t, unsized_stream e ed /\ e_terminator e = Some (VBytes t) /\ r = b ++ t).
Proof. exact StreamProofs.stream_fold_map. Qed.
Print Assumptions C21_stream_fold_map.

Example C21_example_fold_map :
  let t := bs [0; 0] in
  let e := elems_term "t" d_uint16 (VBytes t) in
  let b := bs [1; 0; 0; 2] in
  len b = 2 * len t /\ (forall j, j < 2 - 1 -> ~ first_at t b 0 j) /\
  folds demo (MStream e d_uint16 None) (VBytes b) [] (b ++ t).
Proof.
  split; [reflexivity|]. split; [|vm_compute; reflexivity].
  intros j H (J & W & _). assert (j = 0) by (clear - H J; lia). subst. discriminate.
Qed.

(** C21. Folding the bytes mapped from a stream returns those bytes. *)
Theorem C21_stream_map_fold : forall orc fuel e ed em bs off vals depth b n,
  0 <= off ->
  (forall k, get_byte_size ed = Some k -> 0 < k) ->
  (unsized_stream e ed -> exists t, e_terminator e = Some (VBytes t) /\ get_byte_size ed = Some (len t)) ->
  let m := MStream e ed em in
  maps orc fuel m bs off vals depth (VBytes b) n ->
  b = window bs off n /\ len b = n /\ folds orc m (VBytes b) vals b.
Proof. exact StreamProofs.stream_map_fold. Qed.
Print Assumptions C21_stream_map_fold.

Example C21_example_map_fold :
  let e := elems_term "t" d_uint16 (VBytes (bs [0; 0])) in
  maps demo 9 (MStream e d_uint16 None) (bs [7; 1; 0; 0; 2; 0; 0; 9]) 1 [] 0 (VBytes (bs [1; 0; 0; 2; 0; 0])) 6.
Proof. eexists. split; vm_compute; reflexivity. Qed.

(** C21. A string is folded as the stream of its encoding; what cannot be encoded raises FoldingError. *)
Theorem C21_string_fold : forall orc e ed em vals,
  let m := MString e ed em in
  (forall s r, folds orc m (VStr s) vals r <->
     exists b, o_encode orc (e_encoding e) s = Some b /\ folds orc (MStream e ed em) (VBytes b) vals r) /\
  (forall s, o_encode orc (e_encoding e) s = None -> fold_fails orc m (VStr s) vals FoldingError) /\
  (forall s b x, o_encode orc (e_encoding e) s = Some b ->
     (fold_fails orc m (VStr s) vals x <-> fold_fails orc (MStream e ed em) (VBytes b) vals x)) /\
  (forall v, (forall s, v <> VStr s) -> fold_fails orc m v vals FoldingError).
Proof. exact StreamProofs.string_fold. Qed.
Print Assumptions C21_string_fold.

Example C21_example_string_fold :
  let e := elems_size "t" d_char 2 in
  fst (foldbs demo (the_map (DElems KString e d_char)) (VStr [233]) None) = Ok (VBytes (bs [195; 169])) /\
  fst (foldbs demo (the_map (DElems KString e d_char)) (VInt 1) None) = Raise FoldingError.
Proof. split; vm_compute; reflexivity. Qed.

(** C21. Mapping the fold of a string that contains no terminator returns the string. *)
Theorem C21_string_fold_map : forall orc fuel e ed em vals s b r pre post depth,
  (forall n, get_byte_size ed = Some n -> 0 < n) ->
  byte_terminator (e_terminator e) ->
  o_encode orc (e_encoding e) s = Some b -> o_decode orc (e_encoding e) b = Some s ->
  (forall t, e_terminator e = Some (VBytes t) -> forall j, ~ first_at t b 0 j) ->
  (unsized_stream e ed -> exists t k, e_terminator e = Some (VBytes t) /\
     get_byte_size ed = Some (len t) /\ len b = k * len t) ->
  let m := MString e ed em in
  folds orc m (VStr s) vals r ->
  maps orc fuel m (pre ++ r ++ post) (len pre) vals depth (VStr s) (len r).
Proof. exact StreamProofs.string_fold_map. Qed.
Print Assumptions C21_string_fold_map.

Example C21_example_string_fold_map :
  let e := elems_term "t" d_char (VBytes (bs [0])) in
  o_encode demo (e_encoding e) [233; 65] = Some (bs [195; 169; 65]) /\
  o_decode demo (e_encoding e) (bs [195; 169; 65]) = Some [233; 65] /\
  folds demo (MString e d_char None) (VStr [233; 65]) [] (bs [195; 169; 65; 0]) /\
  (forall j, ~ first_at (bs [0]) (bs [195; 169; 65]) 0 j) /\
  run (DElems KString e d_char) (bs [195; 169; 65; 0; 7]) 0 = (Ok (VStr [233; 65]), Some 4).
Proof.
  split; [vm_compute; reflexivity|]. split; [vm_compute; reflexivity|]. split; [vm_compute; reflexivity|].
  split; [|vm_compute; reflexivity].
  intros j K. assert (I : 0 + (j + 1) * len (bs [0]) <= len (bs [195; 169; 65])) by (apply (first_at_inside _ _ _ _ (Z.le_refl 0)); [reflexivity|exact K]). cbn in I.
  destruct K as (J & W & _). assert (j = 0 \/ j = 1 \/ j = 2) as [-> | [-> | ->]] by (clear - I J; lia); discriminate.
Qed.
