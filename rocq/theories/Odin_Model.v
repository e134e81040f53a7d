(* The writers for Odin detectors: the files that the data goes to, the virtual dataset file made of
   them, what is announced, and how the progress is counted.
   /repo/malcolm/modules/ADOdin/parts/odinwriterpart.py,
   /repo/malcolm/modules/xspress3/parts/xspresswriterpart.py and, for the counting,
   /repo/malcolm/modules/ADCore/parts/hdfwriterpart.py. *)
From Coq Require Import String Ascii Bool QArith Qround ZArith List.
From Verif Require Import Base Hdf_Model.
Import ListNotations.
Local Open Scope nat_scope.
Local Open Scope string_scope.
Local Open Scope list_scope.

(* ZeroDivisionError or ValueError of files_shape (96-111); BadValueError of a snake (170-176); the
   ValueError of h5py for a name that is in use, its KeyError for one that is not there; IndexError
   (xspresswriterpart.py 193, 224, 425). *)
Inductive oerr := ZeroDivision | Snake | NameInUse | NoSuchName | IndexError | NoExtension.

(* list(range(r, 0, -b)): odinwriterpart.py 105 (Python semantics; b > 0). *)
Definition down (r b : nat) : list nat := map (fun k => r - k * b) (seq 0 ((r + b - 1) / b)).

(* files_shape: odinwriterpart.py 96-111, the same in xspresswriterpart.py 110-125.  The float
   per_file is an exact rational here. *)
Definition files_shape (frames block_size file_count : nat) : result oerr (list nat) :=
  if Nat.eqb (file_count * block_size) 0 then Err ZeroDivision
  else
    let per_file := Z.of_nat frames # Pos.of_nat (file_count * block_size) in
    let remainder := frames mod (file_count * block_size) in
    let remainders := map (fun remains => if Nat.ltb block_size remains then block_size else remains)
                          (down remainder block_size) in
    let remainders := remainders ++ repeat 0 (file_count - length remainders) in
    Ok (map (fun i => Z.to_nat (Qfloor (per_file * inject_Z (Z.of_nat block_size)
                                        + inject_Z (Z.of_nat (nth i remainders 0))))) (seq 0 file_count)).

(* f"{n:06d}": odinwriterpart.py 180 (Python semantics). *)
Fixpoint zeros (n : nat) : string := match n with O => "" | S m => "0" +++ zeros m end.
(* The same: odinwriterpart.py 180. *)
Definition pad6 (n : nat) : string := zeros (6 - String.length (str n)) +++ str n.

(* What is at a name of the file.  NInterleave: the virtual dataset of InterleaveVDSGenerator (129-139):
   the files, the node in them, frames in each, block size.  NReshape: that of ReshapeVDSGenerator
   (142-153): its source in the file and its shape.  NExt: h5py.ExternalLink (202-203).  NHard: a
   hard link (276).  NSet: a dataset of demand positions with its units (295-297):
   odinwriterpart.py 129-299, xspresswriterpart.py 247-303. *)
Inductive node :=
| NInterleave (files : list string) (source : string) (shape : list nat) (block : nat)
| NReshape (source : string) (shape : list nat)
| NExt (file path : string)
| NHard (target : string)
| NSet (positions : list Q) (units : string).

(* The file: names (absolute, as h5py reads them) with nodes.  Groups are not kept:
   odinwriterpart.py 72-299. *)
Definition h5 := list (string * node).

(* vds[path] = node, or the creation of a virtual dataset: h5py raises for a name in use (assumed of
   h5py and vdsgen): odinwriterpart.py 72-299. *)
Definition put (f : h5) (p : string) (n : node) : result oerr h5 :=
  if dmem p f then Err NameInUse else Ok (f ++ [(p, n)]).
(* Several of them in order (Python semantics): odinwriterpart.py 72-299. *)
Fixpoint puts (f : h5) (l : list (string * node)) : result oerr h5 :=
  match l with
  | [] => Ok f
  | (p, n) :: r => match put f p n with Ok f' => puts f' r | Err e => Err e end
  end.

(* one_vds: odinwriterpart.py 114-153, without the image size and type. *)
Definition one_vds (files : list string) (shape : list nat) (g : gen) (block : nat) (source target : string)
  : list (string * node) :=
  [("/process/" +++ target +++ "_interleave", NInterleave files source shape block);
   ("/" +++ target, NReshape ("/process/" +++ target +++ "_interleave") (map d_size (g_dims g)))].

(* generator.size: the product of the sizes of the dimensions (scanpointgenerator):
   odinwriterpart.py 166, 388. *)
Definition gen_size (g : gen) : nat := fold_right Nat.mul 1 (map d_size (g_dims g)).

(* files: odinwriterpart.py 179-181; os.path.join for a folder that does not end in a slash. *)
Definition odin_files (folder raw_name : string) (count : nat) : list string :=
  map (fun i => folder +++ "/" +++ raw_name +++ "_" +++ pad6 (i + 1) +++ ".h5") (seq 0 count).

(* create_vds: odinwriterpart.py 156-237.  [alternate] are the alternate flags of the dimensions. *)
Definition odin_vds (g : gen) (alternate : list bool) (folder raw_name uid_name sum_name : string)
  (block_size hdf_count : nat) : result oerr h5 :=
  match files_shape (gen_size g) block_size hdf_count with
  | Err e => Err e
  | Ok shape =>
      if existsb (fun b => b) (tl alternate) then Err Snake
      else
        let files := odin_files folder raw_name hdf_count in
        puts [] (one_vds files shape g block_size "data" "data"
                 ++ flat_map (fun cf => [("/raw" +++ str (fst cf), NExt (snd cf) "/data");
                                         ("/uid" +++ str (fst cf), NExt (snd cf) "/uid")]) (enum 1 files)
                 ++ one_vds files shape g block_size uid_name "uid"
                 ++ one_vds files shape g block_size sum_name "sum")
  end.

(* The demand positions of a node: odinwriterpart.py 278-298; the axes are distinct, so
   axis_sets never has the axis; [base] ends in a slash as in set_bases. *)
Definition axis_nodes (g : gen) (base : string) : list (string * node) :=
  flat_map (fun d => map (fun a => (base +++ a +++ "_set", NSet (d_pos d a) (g_units g a))) (d_axes d)) (g_dims g).
(* The attributes of a node: odinwriterpart.py 269-274, 283-285: axes, signal, indices. *)
Record nattrs := mkN { n_axes : list string; n_signal : string; n_indices : list (string * nat) }.
(* pad_dims and the attributes: odinwriterpart.py 256-274, 281-285. *)
Definition node_attrs (g : gen) (signal : string) : nattrs :=
  mkN (pad_dims g 2) signal
      (flat_map (fun id => map (fun a => (a +++ "_set_indices", fst id)) (d_axes (snd id))) (enum 0 (g_dims g))).

(* The loop over zip(set_data, set_bases): odinwriterpart.py 266-298; "/entry/detector/" + "/data" is
   "/entry/detector/data" for h5py; vds[data] raises if it is not there. *)
Fixpoint add_nodes (g : gen) (f : h5) (l : list (string * string)) : result oerr (h5 * list (string * nattrs)) :=
  match l with
  | [] => Ok (f, [])
  | (data, base) :: r =>
      if dmem ("/" +++ data) f then
        match puts f ((base +++ data, NHard ("/" +++ data)) :: axis_nodes g base) with
        | Err e => Err e
        | Ok f' => match add_nodes g f' r with
                   | Err e => Err e
                   | Ok (f2, at_) => Ok (f2, (base, node_attrs g data) :: at_)
                   end
        end
      else Err NoSuchName
  end.

(* add_nexus_nodes: odinwriterpart.py 244-299. *)
Definition odin_nexus (g : gen) (f : h5) : result oerr (h5 * list (string * nattrs)) :=
  add_nodes g f [("data", "/entry/detector/"); ("sum", "/entry/detector_sum/"); ("uid", "/entry/detector_uid/")].

(* The axes' part of create_dataset_infos: odinwriterpart.py 61-70, xspresswriterpart.py 55-64. *)
Definition set_infos (g : gen) (filename base : string) : list produced :=
  map (fun a => mkP (a +++ ".value_set") filename POSITION_SET 1 (base +++ a +++ "_set") "") (g_axes g).
(* create_dataset_infos: odinwriterpart.py 35-70. *)
Definition odin_infos (name : string) (g : gen) (filename secondary : string) : list produced :=
  let grank := length (g_dims g) in
  mkP (name +++ ".data") filename PRIMARY (grank + 2) "/entry/detector/data" "/entry/detector_uid/uid"
  :: mkP (name +++ "." +++ secondary) filename SECONDARY (grank + 2)
         ("/entry/detector_" +++ secondary +++ "/" +++ secondary) "/entry/detector_uid/uid"
  :: set_infos g filename "/entry/detector/".
(* create_raw_dataset_infos: odinwriterpart.py 73-93. *)
Definition odin_raw_infos (name : string) (rank : nat) (filename : string) (n_raw : nat) : list produced :=
  map (fun i => mkP (name +++ ".raw" +++ str (i + 1)) filename RAW rank ("/raw" +++ str (i + 1)) "") (seq 0 (n_raw + 1))
  ++ map (fun i => mkP (name +++ ".uid" +++ str (i + 1)) filename RAW rank ("/uid" +++ str (i + 1)) "") (seq 0 (n_raw + 1)).

(* fileTemplate.replace("%s", formatName): odinwriterpart.py 374 (Python semantics). *)
Fixpoint subst (t name : string) : string :=
  match t with
  | String "%" (String "s" r) => name +++ subst r name
  | String c r => String c (subst r name)
  | EmptyString => ""
  end.
(* "." in s: odinwriterpart.py 383-385. *)
Fixpoint has_dot (s : string) : bool :=
  match s with EmptyString => false | String c r => Ascii.eqb c "."%char || has_dot r end.
(* os.path.splitext(s)[0]: odinwriterpart.py 381, for names without a directory: up to the last dot, if
   there is something other than dots before it (Python semantics). *)
Fixpoint no_ext (s : string) : string :=
  match s with
  | EmptyString => ""
  | String c r => if Ascii.eqb c "."%char && negb (has_dot r) then "" else String c (no_ext r)
  end.
(* The dots that splitext leaves alone: odinwriterpart.py 381. *)
Fixpoint splitext (s : string) : string :=
  match s with
  | String "." r => "." +++ splitext r
  | _ => if has_dot s then no_ext s else s
  end.

(* OdinWriterPart.on_configure as far as files go: odinwriterpart.py 371-426: the file with its
   attributes and the infos. *)
Definition odin_configure (g : gen) (alternate : list bool) (folder fmt template uid_name sum_name secondary : string)
  (block_size processes : nat) : result oerr (h5 * list (string * nattrs) * list produced) :=
  let filename := subst template fmt in
  let raw := splitext (subst template (fmt +++ "_raw_data")) in
  if has_dot (folder +++ "/" +++ filename) then
    match odin_vds g alternate folder raw uid_name sum_name block_size processes with
    | Err e => Err e
    | Ok f => match odin_nexus g f with
              | Err e => Err e
              | Ok (f', at_) => Ok (f', at_, odin_infos fmt g filename secondary
                                             ++ odin_raw_infos fmt (length (g_dims g) + 2) filename processes)
              end
    end
  else Err NoExtension.

(* ** Xspress *)

(* dict_filewriter: xspresswriterpart.py 33. *)
Definition letters : list string := ["A"; "B"; "C"; "D"; "E"; "F"; "G"; "H"].
(* files: xspresswriterpart.py 192-195. *)
Definition xsp_files (folder raw_name : string) (count : nat) : result oerr (list string) :=
  if Nat.leb count (length letters)
  then Ok (map (fun c => folder +++ "/" +++ raw_name +++ "_" +++ c +++ "_" +++ pad6 0 +++ ".h5") (firstn count letters))
  else Err IndexError.
(* The loop over the channels: xspresswriterpart.py 216-225. *)
Fixpoint mca_loop (files : list string) (per_file counter : nat) (chans : list nat) : result oerr (list (string * node)) :=
  match chans with
  | [] => Ok []
  | c :: r =>
      let counter := if Nat.leb (per_file * (counter + 1)) c then counter + 1 else counter in
      match nth_error files counter with
      | None => Err IndexError
      | Some f => match mca_loop files per_file counter r with
                  | Err e => Err e
                  | Ok l => Ok (("/raw/mca" +++ str c, NExt f ("/mca_" +++ str c)) :: l)
                  end
      end
  end.
(* create_vds: xspresswriterpart.py 170-240; int(num_datasets / hdf_count) is the quotient. *)
Definition xsp_vds (g : gen) (alternate : list bool) (folder raw_name : string) (block_size hdf_count num_datasets : nat)
  : result oerr h5 :=
  match files_shape (gen_size g) block_size hdf_count with
  | Err e => Err e
  | Ok shape =>
      if existsb (fun b => b) (tl alternate) then Err Snake
      else match xsp_files folder raw_name hdf_count with
           | Err e => Err e
           | Ok files =>
               let meta := folder +++ "/" +++ raw_name +++ "_meta.h5" in
               match mca_loop files (num_datasets / hdf_count) 0 (seq 0 num_datasets) with
               | Err e => Err e
               | Ok mcas =>
                   puts [] (one_vds files shape g block_size "data" "data" ++ mcas
                            ++ map (fun cf => ("/raw/uid" +++ str (fst cf), NExt (snd cf) "/uid")) (enum 0 files)
                            ++ map (fun s => ("/raw/scalar_" +++ str s, NExt meta ("/scalar_" +++ str s))) (seq 0 9)
                            ++ [("/raw/dtc", NExt meta "/dtc")])
               end
           end
  end.
(* add_nexus_nodes: xspresswriterpart.py 247-303. *)
Definition xsp_nexus (g : gen) (f : h5) : result oerr (h5 * list (string * nattrs)) :=
  add_nodes g f [("data", "/entry/xspress/")].
(* create_dataset_infos: xspresswriterpart.py 40-64. *)
Definition xsp_infos (name : string) (g : gen) (filename : string) : list produced :=
  mkP (name +++ ".data") filename PRIMARY (length (g_dims g) + 2) "/entry/xspress/data" "/entry/xspress/uid"
  :: set_infos g filename "/entry/xspress/".
(* create_raw_dataset_infos: xspresswriterpart.py 67-107. *)
Definition xsp_raw_infos (name : string) (rank : nat) (filename : string) (num_datasets pairs : nat) : list produced :=
  map (fun i => mkP (name +++ ".raw_mca" +++ str i) filename RAW rank ("/raw/mca" +++ str i) "") (seq 0 num_datasets)
  ++ map (fun i => mkP (name +++ ".scalar_" +++ str i) filename RAW rank ("/raw/scalar_" +++ str i) "") (seq 0 9)
  ++ map (fun i => mkP (name +++ ".uid" +++ str (i + 1)) filename RAW rank ("/raw/uid" +++ str i) "") (seq 0 pairs)
  ++ [mkP (name +++ ".dtc") filename RAW rank "/raw/dtc" ""].
(* XspressWriterPart.on_configure as far as files go: xspresswriterpart.py 380-439. *)
Definition xsp_configure (g : gen) (alternate : list bool) (folder fmt template : string)
  (block_size processes num_datasets pairs : nat) : result oerr (h5 * list (string * nattrs) * list produced) :=
  let filename := subst template fmt in
  let raw := splitext (subst template (fmt +++ "_raw_data")) in
  if has_dot (folder +++ "/" +++ filename) then
    match xsp_vds g alternate folder raw block_size processes num_datasets with
    | Err e => Err e
    | Ok f => match xsp_nexus g f with
              | Err e => Err e
              | Ok (f', at_) =>
                  if Nat.leb pairs (length letters)
                  then Ok (f', at_, xsp_infos fmt g filename
                                    ++ xsp_raw_infos fmt (length (g_dims g) + 2) filename num_datasets pairs)
                  else Err IndexError
              end
    end
  else Err NoExtension.
