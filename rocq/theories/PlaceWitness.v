(** Documents in another order, for the examples. *)
From Coq Require Import String List ZArith Bool Lia Permutation.
From Verif Require Import Base Ieee PyVal Yaml DataTypes DataMaps Reader SpecReader SpecDescribe Fabric SpecFabric SpecPlace
  Demo DemoYaml ReaderProofs DescribeProofs FabricProofs PlaceProofs.
Import ListNotations.
Open Scope Z_scope.
Local Open Scope string_scope.
Local Open Scope list_scope.

Definition o_spot : yval := y_struct "spot" [y_member "x" "uint32"; y_member "y" "BYTE"].
Definition o_spots : yval :=
  doc [("name", Y "spots"); ("type", Y "sequence"); ("element_data_type", Y "SPOT"); ("number_of_elements", Y "2")].

Definition o_docs : list yval := [y_uint8; y_uint32; o_spot; o_spots; y_bytes].
Definition o_docs' : list yval := [y_uint32; y_uint8; y_bytes; o_spot; o_spots].

(** Decides [own_aliases]. *)
Definition own_aliasesb (env : yenv) (ds : list rdef) : bool :=
  forallb (fun d => match y_iter (rd_aliases d) with
                    | Ok l => forallb (fun a => forallb (fun x =>
                        match y_lower env a, y_lower env (rd_name x) with
                        | Ok (YStr k), Ok (YStr k') => negb (list_eqb Z.eqb k k')
                        | Ok (YStr _), _ => true
                        | _, _ => false
                        end) ds) l
                    | _ => true
                    end) ds.

Lemma own_aliases_sound env ds : own_aliasesb env ds = true -> own_aliases env ds.
Proof.
  intros H d x l a k D X L A K N. exfalso. unfold own_aliasesb in H.
  rewrite forallb_forall in H. specialize (H d D). rewrite L in H.
  rewrite forallb_forall in H. specialize (H a A). rewrite forallb_forall in H. specialize (H x X). rewrite K, N in H.
  destruct k; try discriminate. assert (Q := proj2 (list_eqb_Z s s) eq_refl). rewrite Q in H. discriminate.
Qed.

Lemma docs_own : own_aliases demo_env (registered (reads_into o_docs)).
Proof. apply own_aliases_sound. vm_compute. reflexivity. Qed.

Lemma docs_moved : Permutation o_docs o_docs'.
Proof.
  unfold o_docs, o_docs'. etransitivity; [apply perm_swap|]. do 2 apply perm_skip.
  change [o_spot; o_spots; y_bytes] with ([o_spot; o_spots] ++ [y_bytes]).
  change [y_bytes; o_spot; o_spots] with ([y_bytes] ++ [o_spot; o_spots]). apply Permutation_app_comm.
Qed.

(** A name that is, but for case, an alias of another definition. *)
Definition o_byte : yval :=
  doc [("name", Y "byte"); ("type", Y "integer"); ("attributes", doc [("format", Y "unsigned"); ("size", YInt 2); ("units", Y "bytes")])].
Definition o_one : yval := y_struct "one" [y_member "x" "BYTE"].

Lemma place_refuted : exists docs docs' r r' d d',
  Permutation.Permutation docs docs' /\
  read_file demo_env rreg_empty (Some (docs, YEnd)) = (Ok tt, r) /\
  read_file demo_env rreg_empty (Some (docs', YEnd)) = (Ok tt, r') /\
  rlookup demo_env r (Y "one") = ROk (Some d) /\ rlookup demo_env r' (Y "one") = ROk (Some d') /\ d <> d'.
Proof.
  exists [y_uint8; o_one; o_byte], [y_uint8; o_byte; o_one]. do 4 eexists.
  split; [apply perm_skip, perm_swap|]. split; [vm_compute; reflexivity|]. split; [vm_compute; reflexivity|].
  split; [vm_compute; reflexivity|]. split; [vm_compute; reflexivity|]. discriminate.
Qed.

Lemma docs_pairs :
  Permutation.Permutation (combine o_docs (registered (reads_into o_docs))) (combine o_docs' (registered (reads_into o_docs'))).
Proof.
  vm_compute. etransitivity; [apply perm_swap|]. do 2 apply perm_skip.
  match goal with |- Permutation [?a; ?b; ?c] _ => exact (Permutation_app_comm [a; b] [c]) end.
Qed.
