(* Pulses of a PandA that gate a detector: ADPandABlocks/parts/pandapulsetriggerpart.py 36-203. *)
From Coq Require Import String Ascii Bool ZArith QArith List.
From Verif Require Import Base Expo_Model Savu_Model.
Import ListNotations.
Local Open Scope string_scope.
Local Open Scope list_scope.

(* A row of the detectors table, the columns used here: pandapulsetriggerpart.py 120. *)
Record trow := mkTrow { t_enable : bool; t_mri : string; t_frames : Z }.

(* What the part sees of the other blocks: the detector attribute of its child (115), the exports
   and layout of the panda (141, 159; of layout name and mri), the units of an attribute of a
   block (168; None: KeyError), the state and exposure of the detector (180, 187; None: KeyError):
   pandapulsetriggerpart.py 111-203. *)
Record world := mkWorld {
  w_detector : string;
  w_exports : list (string * string);
  w_layout : list (string * string);
  w_units : string -> string -> option string;
  w_state : string;
  w_exposure : option Q
}.

(* The asserts and errors in the order of the code: 81, 105, 119, 124, 132, 145, 151, 162, 168,
   169, 181, 191: pandapulsetriggerpart.py 81-191. *)
Inductive perr :=
| Negative | NotFixed | NoTable | ZeroFrames | NoRow | OtherBlock (export : string)
| NotExported (l : list string) | NotInLayout | NoUnits | WrongUnits (u : string) | NotArmed | TooWide.

(* TICK: ADPandABlocks/doublebuffer.py 14.  Floats are exact rationals here. *)
Definition TICK : Q := 8 # 1000000000.

(* on_validate: pandapulsetriggerpart.py 69-84: the duration of the tweaked generator, if any. *)
Definition on_validate (duration : Q) : result perr (option Q) :=
  if Qeq_bool duration 0 then Ok (Some (2 * TICK)%Q)
  else if qlt 0 duration then Ok None else Err Negative.

(* The first row of the detector: pandapulsetriggerpart.py 119-134. *)
Fixpoint find_frames (mri : string) (t : list trow) : result perr Z :=
  match t with
  | [] => Err NoRow
  | r :: rest =>
      if String.eqb (t_mri r) mri then
        if t_enable r then (if (0 <? t_frames r)%Z then Ok (t_frames r) else Err ZeroFrames)
        else Ok 0%Z
      else find_frames mri rest
  end.

(* The suffixes: pandapulsetriggerpart.py 138. *)
Definition suffixes : list string := ["Pulses"; "Width"; "Step"; "Delay"].

(* source.split(".")[0]: pandapulsetriggerpart.py 143. *)
Definition part_name (source : string) : string := hd "" (split "."%char source).

(* The loop over the exports: pandapulsetriggerpart.py 141-150.  pulse_name is None or a string;
   the test in 144 takes an empty one for None. *)
Definition truthy (p : option string) : option string :=
  match p with Some s => if String.eqb s "" then None else Some s | None => None end.
(* pandapulsetriggerpart.py 136-154. *)
Fixpoint check_exports (expected : list string) (pulse_name : option string) (rows : list (string * string))
  : result perr (list string * option string) :=
  match rows with
  | [] => Ok (expected, pulse_name)
  | (source, export) :: rest =>
      if smem export expected then
        match truthy pulse_name with
        | Some p =>
            if String.eqb (part_name source) p
            then check_exports (filter (fun e => negb (String.eqb e export)) expected) pulse_name rest
            else Err (OtherBlock export)
        | None => check_exports (filter (fun e => negb (String.eqb e export)) expected) (Some (part_name source)) rest
        end
      else check_exports expected pulse_name rest
  end.

(* The last row of the layout with the name of the block: pandapulsetriggerpart.py 157-162. *)
Definition find_mri (pulse_name : option string) (layout : list (string * string)) : result perr string :=
  let l := filter (fun r => match pulse_name with Some p => String.eqb (fst r) p | None => false end) layout in
  let mri := last (map snd l) "" in
  if String.eqb mri "" then Err NotInLayout else Ok mri.

(* The units: pandapulsetriggerpart.py 165-175; lower() of a suffix written out. *)
Fixpoint check_units (units : string -> option string) (attrs : list string) : result perr unit :=
  match attrs with
  | [] => Ok tt
  | a :: rest => match units a with
                 | None => Err NoUnits
                 | Some u => if String.eqb u "s" then check_units units rest else Err (WrongUnits u)
                 end
  end.
(* pandapulsetriggerpart.py 164-170. *)
Definition unit_attrs : list string := ["widthUnits"; "stepUnits"; "delayUnits"].

(* on_configure: pandapulsetriggerpart.py 99-175.  Gives generator_duration and frames_per_step;
   what is set on self before an error is not kept here.  detectors may be None (119). *)
Definition on_configure (name : string) (w : world) (duration : Q) (detectors : option (list trow))
  : result perr (Q * Z) :=
  if qlt 0 duration then
    match detectors with
    | None => Err NoTable
    | Some t =>
        match find_frames (w_detector w) t with
        | Err e => Err e
        | Ok frames =>
            match check_exports (map (fun s => (name ++ s)%string) suffixes) None (w_exports w) with
            | Err e => Err e
            | Ok (expected, pulse_name) =>
                match expected with
                | _ :: _ => Err (NotExported expected)
                | [] =>
                    match find_mri pulse_name (w_layout w) with
                    | Err e => Err e
                    | Ok mri =>
                        match check_units (w_units w mri) unit_attrs with
                        | Err e => Err e
                        | Ok _ => Ok (duration, frames)
                        end
                    end
                end
            end
        end
    end
  else Err NotFixed.

(* What is written: a float or an int (pandapulsetriggerpart.py 197-202). *)
Inductive pval := PFloat (q : Q) | PInt (z : Z).

(* on_post_configure: pandapulsetriggerpart.py 177-203.  What is put to the panda, in the order of
   put_attribute_values (core/views.py 168-186: sorted). *)
Definition on_post_configure (name : string) (zero_delay : bool) (w : world) (conf : Q * Z)
  : result perr (list (string * pval)) :=
  let '(duration, frames) := conf in
  if (0 <? frames)%Z then
    if String.eqb (w_state w) "Armed" then
      let step := (duration / inject_Z frames)%Q in
      let width := match w_exposure w with Some e => e | None => (step - (1 # 1000000))%Q end in
      if qlt width step then
        let delay := if zero_delay then 0%Q else ((step - width) / 2)%Q in
        Ok [((name ++ "Delay")%string, PFloat delay);
            ((name ++ "Pulses")%string, PInt frames);
            ((name ++ "Step")%string, PFloat step);
            ((name ++ "Width")%string, PFloat width)]
      else Err TooWide
    else Err NotArmed
  else Ok [].

(* A put to an export of the panda is a put to the attribute it stands for (the manager of the
   panda, builtin/controllers/managercontroller.py 330-392, one row for each export; the block
   attributes that are exported pass the put on). *)
Definition put_export (exports : list (string * string)) (store : dict pval) (nv : string * pval) : dict pval :=
  match find (fun r => String.eqb (snd r) (fst nv)) exports with
  | Some (source, _) => dset source (snd nv) store
  | None => store
  end.
(* core/views.py 168-186. *)
Definition put_all (exports : list (string * string)) (store : dict pval) (l : list (string * pval)) : dict pval :=
  fold_left (put_export exports) l store.
