(** C54, C55, specification: the frames of each file and what is read from a file. *)
From Coq Require Import String Bool QArith List.
From Verif Require Import Base Hdf_Model Odin_Model.
Import ListNotations.
Local Open Scope nat_scope.
Local Open Scope string_scope.
Local Open Scope list_scope.

(** Frames are dealt to the files in blocks, one file after the other: the frames of file [i]. *)
Definition dealt (frames block files i : nat) : list nat :=
  filter (fun k => Nat.eqb ((k / block) mod files) i) (seq 0 frames).

Definition total (l : list nat) : nat := fold_right Nat.add 0 l.

(** Reading a path: links and reshaped datasets lead to what they stand for. *)
Inductive reads (f : h5) : string -> node -> Prop :=
| reads_vds : forall p l s h b, In (p, NInterleave l s h b) f -> reads f p (NInterleave l s h b)
| reads_ext : forall p l s, In (p, NExt l s) f -> reads f p (NExt l s)
| reads_set : forall p q u, In (p, NSet q u) f -> reads f p (NSet q u)
| reads_link : forall p t n, In (p, NHard t) f -> reads f t n -> reads f p n
| reads_shape : forall p s h n, In (p, NReshape s h) f -> reads f s n -> reads f p n.

(** The demand positions of an axis of the scan. *)
Definition demand (g : gen) (a : string) (n : node) : Prop :=
  exists d, In d (g_dims g) /\ In a (d_axes d) /\ n = NSet (d_pos d a) (g_units g a).

(** What an announced dataset of an Odin detector should be, for the files that the data goes to. *)
Inductive odin_meant (g : gen) (name uid_name sum_name : string) (files : list string) (shape : list nat) (block : nat) (f : h5)
  : produced -> node -> Prop :=
| om_primary : forall d, p_type d = PRIMARY -> p_name d = name +++ ".data" -> p_rank d = length (g_dims g) + 2 ->
    reads f (p_uid d) (NInterleave files uid_name shape block) ->
    odin_meant g name uid_name sum_name files shape block f d (NInterleave files "data" shape block)
| om_secondary : forall d, p_type d = SECONDARY -> p_name d = name +++ ".sum" -> p_rank d = length (g_dims g) + 2 ->
    reads f (p_uid d) (NInterleave files uid_name shape block) ->
    odin_meant g name uid_name sum_name files shape block f d (NInterleave files sum_name shape block)
| om_set : forall d a n, In a (g_axes g) -> p_type d = POSITION_SET -> p_name d = a +++ ".value_set" -> p_rank d = 1 ->
    demand g a n -> odin_meant g name uid_name sum_name files shape block f d n
| om_raw : forall d i file, nth_error files i = Some file -> p_type d = RAW -> p_name d = name +++ ".raw" +++ str (i + 1) ->
    odin_meant g name uid_name sum_name files shape block f d (NExt file "/data")
| om_uid : forall d i file, nth_error files i = Some file -> p_type d = RAW -> p_name d = name +++ ".uid" +++ str (i + 1) ->
    odin_meant g name uid_name sum_name files shape block f d (NExt file "/uid").

(** The same for Xspress, with [per] channels in each file; nothing is said of the unique id. *)
Inductive xsp_meant (g : gen) (name : string) (files : list string) (meta : string) (shape : list nat) (block per : nat)
  : produced -> node -> Prop :=
| xm_primary : forall d, p_type d = PRIMARY -> p_name d = name +++ ".data" -> p_rank d = length (g_dims g) + 2 ->
    xsp_meant g name files meta shape block per d (NInterleave files "data" shape block)
| xm_set : forall d a n, In a (g_axes g) -> p_type d = POSITION_SET -> p_name d = a +++ ".value_set" -> p_rank d = 1 ->
    demand g a n -> xsp_meant g name files meta shape block per d n
| xm_mca : forall d c i k file, c = i * per + k -> k < per -> nth_error files i = Some file -> p_type d = RAW ->
    p_name d = name +++ ".raw_mca" +++ str c -> xsp_meant g name files meta shape block per d (NExt file ("/mca_" +++ str c))
| xm_uid : forall d i file, nth_error files i = Some file -> p_type d = RAW -> p_name d = name +++ ".uid" +++ str (i + 1) ->
    xsp_meant g name files meta shape block per d (NExt file "/uid")
| xm_scalar : forall d i, i < 9 -> p_type d = RAW -> p_name d = name +++ ".scalar_" +++ str i ->
    xsp_meant g name files meta shape block per d (NExt meta ("/scalar_" +++ str i))
| xm_dtc : forall d, p_type d = RAW -> p_name d = name +++ ".dtc" -> xsp_meant g name files meta shape block per d (NExt meta "/dtc").

(** A group follows NeXus: the signal is in it, there is one axis for each dimension and two for the
    image, and each axis of the scan is in it with the dimension that it belongs to. *)
Definition nexus (g : gen) (f : h5) (base : string) (at_ : nattrs) : Prop :=
  (exists l s h b, reads f (base +++ n_signal at_) (NInterleave l s h b)) /\
  length (n_axes at_) = length (g_dims g) + 2 /\
  (forall a i, In (a +++ "_set_indices", i) (n_indices at_) <-> exists d, nth_error (g_dims g) i = Some d /\ In a (d_axes d)) /\
  forall i d, nth_error (g_dims g) i = Some d ->
    (forall a, d_axes d = [a] -> nth_error (n_axes at_) i = Some (a +++ "_set")) /\
    (forall a, In a (d_axes d) -> reads f (base +++ a +++ "_set") (NSet (d_pos d a) (g_units g a))).
