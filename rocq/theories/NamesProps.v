(** Property theorems C01 and C02: unique layer names, lossless architecture
    generation.

    A "program" is a list of layer creations and [>>] wirings; [created ops]
    are the base names it gives, [wirings ops] the wirings it makes and
    [connected ops] is the reflexive-symmetric-transitive closure of them. *)
From Coq Require Import String Ascii List Arith Bool Lia Permutation Relations.
From Verif Require Import PyBase UtilsModel NamesModel NamesProofs.
Import ListNotations.
Open Scope string_scope.
Open Scope list_scope.
Open Scope nat_scope.

(** Every program with valid names that only wires existing layers runs
    without error (so the hypotheses [run ops empty_world = Some w] below are
    met by all sensible programs). *)
Theorem C01_programs_run : forall ops, wf_program ops -> exists w, run ops empty_world = Some w.
Proof. exact run_total. Qed.
Print Assumptions C01_programs_run.

(** Different connected layers have different names. *)
Theorem C01_names_unique : forall ops w a b,
  run ops empty_world = Some w -> connected ops a b -> a <> b ->
  exists na nb, layer_name w a = Some na /\ layer_name w b = Some nb /\ na <> nb.
Proof. exact names_unique. Qed.
Print Assumptions C01_names_unique.

(** The name property always terminates with a name. *)
Theorem C01_names_total : forall ops w a,
  run ops empty_world = Some w -> a < length (created ops) ->
  exists n, layer_name w a = Some n.
Proof. exact layer_name_total. Qed.
Print Assumptions C01_names_total.

(** A layer whose base name is not shared within its group reports it. *)
Theorem C01_unshared_base_name : forall ops w a n,
  run ops empty_world = Some w -> nth_error (created ops) a = Some n ->
  (forall b, connected ops a b -> nth_error (created ops) b = Some n -> b = a) ->
  layer_name w a = Some n.
Proof. exact name_unshared. Qed.
Print Assumptions C01_unshared_base_name.

(** Layers sharing a base name are numbered in the order of their creation. *)
Theorem C01_shared_base_name_numbered : forall ops w a b n,
  run ops empty_world = Some w -> connected ops a b -> a < b ->
  nth_error (created ops) a = Some n -> nth_error (created ops) b = Some n ->
  exists i j, layer_name w a = Some (n ++ "_" ++ dec i)%string /\
              layer_name w b = Some (n ++ "_" ++ dec j)%string /\ 1 <= i /\ i < j.
Proof. exact name_shared. Qed.
Print Assumptions C01_shared_base_name_numbered.

(** A program with a clash between a base name and a generated name: layers
    "A", "A", "A_1" wired in a chain are called A_2, A_3 and A_1. *)
Definition example_program : list op :=
  [Create "A" None; Create "B" (Some "A"); Create "C" (Some "A_1");
   Wire 0 "default" "default" 1; Wire 2 "default" "" 1].

Example C01_example :
  exists w, run example_program empty_world = Some w /\ connected example_program 0 2 /\
    map (layer_name w) [0; 1; 2] = [Some "A_2"; Some "A_3"; Some "A_1"].
Proof.
  eexists. split; [reflexivity|]. split; [|vm_compute; reflexivity].
  apply rst_trans with 1; [|apply rst_sym]; apply rst_step; do 2 eexists; simpl; auto.
Qed.

(** collect_connected_layers returns exactly the connected layers. *)
Theorem C02_collect_connected : forall ops w a,
  run ops empty_world = Some w -> a < length (created ops) ->
  exists l, collect_connected_layers w a = Some l /\ NoDup l /\
            (forall x, In x l <-> connected ops a x).
Proof. exact collect_spec. Qed.
Print Assumptions C02_collect_connected.

(** generate_architecture, whatever the iteration order over the set of
    connected layers: one entry per connected layer under its name and with
    its type, no name twice, and the connections read back by
    collect_all_connections are exactly the wirings made from these layers,
    with multiplicity. *)
Theorem C02_generate_architecture_lossless : forall ops w a l order,
  run ops empty_world = Some w -> a < length (created ops) ->
  collect_connected_layers w a = Some l -> Permutation order l ->
  exists ar, generate_architecture_in w order = Some ar /\
    map (fun it => (Some (fst it), Some (fst (snd it)))) ar
      = map (fun x => (layer_name w x, nth_error (created_types ops) x)) order /\
    NoDup (dkeys ar) /\
    Permutation (map Some (all_connections ar))
      (map (con_of (layer_name w))
           (filter (fun x => match x with (s, _, _, _) => nmem s order end) (wirings ops))).
Proof. exact generate_architecture_spec. Qed.
Print Assumptions C02_generate_architecture_lossless.

Example C02_example :
  exists w l, run example_program empty_world = Some w /\
    collect_connected_layers w 1 = Some l /\ Permutation [2; 0; 1] l /\
    exists ar, generate_architecture_in w [2; 0; 1] = Some ar /\
      all_connections ar = [mkCon "A_1" "default" "A_3" "default";
                            mkCon "A_2" "default" "A_3" "default"].
Proof.
  do 2 eexists. split; [reflexivity|]. split; [vm_compute; reflexivity|].
  split.
  - apply NoDup_Permutation; [| |intros x; simpl; tauto];
      repeat constructor; simpl; intuition lia.
  - eexists. split; [vm_compute; reflexivity | vm_compute; reflexivity].
Qed.
