(* Model of what the parts of a scan put to their child blocks: the names of the attributes they put
   in each call, the attributes those blocks have, and the attributes the parts keep out of the saved
   design (no_save).  Block YAMLs and parts in /repo/malcolm/modules; what becomes of the design is
   in Mgr_Model. *)
From Coq Require Import String Bool ZArith List.
From Verif Require Import Base Mgr_Model.
Import ListNotations.
Local Open Scope string_scope.
Local Open Scope list_scope.

(* an attribute of a block made by a YAML file: Cfg: it has a pv and is a config attribute, Wr: it has
   a pv but no config tag ("config: 0" or "config: False"), Ro: only an rbv.
   ca/util.py 66-104, 180-216; names of actions are left out *)
Inductive attr_kind := Cfg | Wr | Ro.
(* a block: its attributes.  core/blocks built by yamlutil.py 223-262 *)
Definition block := list (string * attr_kind).

(* ADCore/includes/ndarraybase_parts.yaml 1-41 *)
Definition ndarraybase_parts : block :=
    [("out", Ro); ("arrayCallbacks", Cfg); ("arrayCounter", Wr); ("arrayCounterReadback", Ro);
   ("uniqueId", Ro); ("attributesFile", Cfg); ("driverVersion", Ro)].
(* ADCore/includes/ndpluginbase_parts.yaml 1-32 *)
Definition ndpluginbase_parts : block :=
  [("ndArrayAddress", Cfg); ("input", Cfg); ("enableCallbacks", Cfg)].
(* ADCore/includes/adbase_parts.yaml 1-76 *)
Definition adbase_parts : block :=
    [("imageMode", Cfg); ("numImages", Cfg); ("acquiring", Ro); ("triggerMode", Cfg); ("exposure",
   Cfg); ("acquirePeriod", Cfg); ("arraySizeX", Ro); ("arraySizeY", Ro)].
(* ADCore/blocks/hdf_writer_block.yaml 1-281 *)
Definition hdf_writer_parts : block :=
    [("fileWriteMode", Cfg); ("swmrMode", Cfg); ("storeAttr", Cfg); ("positionMode", Cfg);
   ("dimAttDatasets", Cfg); ("lazyOpen", Cfg); ("numCapture", Cfg); ("numCapturedReadback", Ro);
   ("flushDataPerNFrames", Cfg); ("cacheFramesPerChunk", Cfg); ("flushAttrPerNFrames", Cfg);
   ("xmlLayout", Cfg); ("xmlLayoutValid", Ro); ("xmlErrorMsg", Ro); ("filePath", Cfg); ("fileName",
   Cfg); ("fileTemplate", Cfg); ("numExtraDims", Cfg); ("posNameDimN", Cfg); ("posNameDimX", Cfg);
   ("posNameDimY", Cfg); ("posNameDim3", Cfg); ("posNameDim4", Cfg); ("posNameDim5", Cfg);
   ("posNameDim6", Cfg); ("posNameDim7", Cfg); ("posNameDim8", Cfg); ("posNameDim9", Cfg);
   ("extraDimSizeN", Cfg); ("extraDimSizeX", Cfg); ("extraDimSizeY", Cfg); ("extraDimSize3", Cfg);
   ("extraDimSize4", Cfg); ("extraDimSize5", Cfg); ("extraDimSize6", Cfg); ("extraDimSize7", Cfg);
   ("extraDimSize8", Cfg); ("extraDimSize9", Cfg); ("running", Ro); ("writeMessage", Ro)].
(* ADCore/blocks/position_labeller_block.yaml 1-63 *)
Definition position_labeller_parts : block :=
  [("xml", Wr); ("idStart", Cfg); ("qty", Ro); ("running", Ro)].
(* ADCore/blocks/stats_plugin_block.yaml 1-28 *)
Definition stats_plugin_parts : block :=
  [("computeStatistics", Cfg)].
(* adUtil/blocks/reframe_plugin_block.yaml 1-73 *)
Definition reframe_plugin_parts : block :=
    [("imageMode", Cfg); ("triggerMode", Cfg); ("triggerOffCondition", Cfg); ("numImages", Cfg);
   ("postCount", Cfg); ("acquiring", Ro); ("averageSamples", Cfg); ("triggerChannel", Cfg)].
(* xmap/blocks/xmap_driver_block.yaml 1-128 *)
Definition xmap_driver_parts : block :=
    [("acquiring", Ro); ("arrayCallbacks", Cfg); ("arrayCounter", Cfg); ("arrayCounterReadback",
   Ro); ("collectMode", Cfg); ("pixelAdvanceMode", Cfg); ("presetMode", Cfg); ("ignoreGate", Cfg);
   ("pixelsPerRun", Cfg); ("autoPixelsPerBuffer", Cfg); ("binsInSpectrum", Cfg); ("dxp1MaxEnergy",
   Wr); ("dxp2MaxEnergy", Wr); ("dxp3MaxEnergy", Wr); ("dxp4MaxEnergy", Wr); ("pixelsPerBuffer",
   Cfg); ("inputLogicPolarity", Cfg); ("attributesFile", Cfg)].
(* ADOdin/blocks/odin_writer_block.yaml 1-119 *)
Definition odin_writer_parts : block :=
    [("numCapture", Cfg); ("numCaptured", Ro); ("numProcesses", Ro); ("imageHeight", Cfg);
   ("imageWidth", Cfg); ("numFramesChunks", Cfg); ("numRowChunks", Cfg); ("numColChunks", Cfg);
   ("blockSize", Cfg); ("blocksPerFile", Cfg); ("dataType", Ro); ("filePath", Cfg); ("fileName",
   Cfg); ("running", Ro); ("writeMessage", Ro)].
(* xspress3/blocks/xspress3_writer_block.yaml 1-119 *)
Definition xspress3_writer_parts : block :=
    [("numCapture", Cfg); ("numCaptured", Ro); ("numProcesses", Ro); ("imageHeight", Cfg);
   ("imageWidth", Cfg); ("numFramesChunks", Cfg); ("numRowChunks", Cfg); ("numColChunks", Cfg);
   ("blockSize", Cfg); ("blocksPerFile", Cfg); ("dataType", Ro); ("filePath", Cfg); ("fileName",
   Cfg); ("running", Ro); ("writeMessage", Ro)].
(* pmac/blocks/cs_block.yaml 1-116 *)
Definition cs_parts : block :=
    [("deferMoves", Cfg); ("csMoveTime", Cfg); ("port", Ro); ("pmac", Ro); ("qVariables", Ro);
   ("forwardKinematic", Ro); ("inverseKinematic", Ro); ("demandA", Wr); ("demandB", Wr); ("demandC",
   Wr); ("demandU", Wr); ("demandV", Wr); ("demandW", Wr); ("demandX", Wr); ("demandY", Wr);
   ("demandZ", Wr)].
(* pmac/blocks/pmac_trajectory_block.yaml 1-220 *)
Definition trajectory_parts : block :=
    [("cs", Cfg); ("pmac", Ro); ("buildMessage", Ro); ("executeMessage", Ro); ("appendMessage", Ro);
   ("scanPercentage", Ro); ("pointsScanned", Ro); ("timeArray", Wr); ("velocityMode", Wr);
   ("userPrograms", Wr); ("numPoints", Cfg); ("pointsBuilt", Ro); ("pointsToBuild", Cfg); ("useA",
   Cfg); ("positionsA", Wr); ("useB", Cfg); ("positionsB", Wr); ("useC", Cfg); ("positionsC", Wr);
   ("useU", Cfg); ("positionsU", Wr); ("useV", Cfg); ("positionsV", Wr); ("useW", Cfg);
   ("positionsW", Wr); ("useX", Cfg); ("positionsX", Wr); ("useY", Cfg); ("positionsY", Wr);
   ("useZ", Cfg); ("positionsZ", Wr); ("trajectoryProgVersion", Ro)].
(* the includes taken in: ADCore/includes/ndpluginbase_parts.yaml 9-11 *)
Definition plugin_base : block := ndarraybase_parts ++ ndpluginbase_parts.

(* the parts that put in a scan, with the block YAML their mri is made from.  Driver stands for the
   detectors with adbase_parts: ADCore/parts/hdfwriterpart.py 415, positionlabellerpart.py 23,
   statspluginpart.py 26, detectordriverpart.py 61, xmap/parts/xmapdriverpart.py 18,
   adUtil/parts/reframepluginpart.py 22, pmac/parts/pmactrajectorypart.py 64, cspart.py 20,
   ADOdin/parts/odinwriterpart.py 304, xspress3/parts/xspresswriterpart.py 308 *)
Inductive kind := Hdf | Labeller | Stats | Driver | Xmap | Reframe | Traj | Cs | Odin | Xspress.
(* ADCore/blocks/hdf_writer_block.yaml 20-22, position_labeller_block.yaml 20-22,
   stats_plugin_block.yaml 20-22, includes/adbase_parts.yaml 15-16,
   adUtil/blocks/reframe_plugin_block.yaml 16-18: what is included, then its own *)
Definition block_of (k : kind) : block :=
  match k with
  | Hdf => plugin_base ++ hdf_writer_parts
  | Labeller => plugin_base ++ position_labeller_parts
  | Stats => plugin_base ++ stats_plugin_parts
  | Driver => ndarraybase_parts ++ adbase_parts
  | Xmap => xmap_driver_parts
  | Reframe => plugin_base ++ reframe_plugin_parts
  | Traj => trajectory_parts
  | Cs => cs_parts
  | Odin => odin_writer_parts
  | Xspress => xspress3_writer_parts
  end.

(* pmac/util.py 19: CS_AXIS_NAMES *)
Definition cs_axis_names : list string := ["A"; "B"; "C"; "U"; "V"; "W"; "X"; "Y"; "Z"].
(* ADCore/parts/hdfwriterpart.py 40: SUFFIXES, letter by letter *)
Definition suffixes : list string := ["N"; "X"; "Y"; "3"; "4"; "5"; "6"; "7"; "8"; "9"].
(* an f-string with a name after a prefix: ADCore/parts/hdfwriterpart.py 157-158,
   pmac/parts/pmactrajectorypart.py 62-63 *)
Definition each (p : string) (l : list string) : list string := map (fun x => (p ++ x)%string) l.

(* the decorators of detectordriverpart.py 52-60 *)
Definition driver_no_save : list string :=
  ["acquirePeriod"; "arrayCallbacks"; "arrayCounter"; "attributesFile"; "exposure"; "imageMode"; "numImages"].
(* no_save_attribute_names of the class (builtin/util.py 178-201: those of the class it comes from
   stay): ADCore/parts/hdfwriterpart.py 395-415, positionlabellerpart.py 22, statspluginpart.py 23-25,
   detectordriverpart.py 52-60, xmap/parts/xmapdriverpart.py 7-17, adUtil/parts/reframepluginpart.py 21,
   pmac/parts/pmactrajectorypart.py 52-63, ADOdin/parts/odinwriterpart.py 303,
   xspress3/parts/xspresswriterpart.py 307; pmac/parts/cspart.py 20 has none *)
Definition no_save_of (k : kind) : list string :=
  match k with
  | Hdf => ["positionMode"; "enableCallbacks"; "fileWriteMode"; "swmrMode"; "storeAttr"; "dimAttDatasets";
            "lazyOpen"; "arrayCounter"; "filePath"; "fileName"; "fileTemplate"; "numExtraDims";
            "flushAttrPerNFrames"; "xmlLayout"; "flushDataPerNFrames"; "numCapture"]
           ++ each "posNameDim" suffixes ++ each "extraDimSize" suffixes
  | Labeller => ["xml"; "enableCallbacks"; "idStart"; "arrayCounter"]
  | Stats => ["attributesFile"; "enableCallbacks"; "computeStatistics"; "arrayCounter"]
  | Driver => driver_no_save
  | Xmap => ["collectMode"; "pixelAdvanceMode"; "presetMode"; "ignoreGate"; "pixelsPerRun";
             "autoPixelsPerBuffer"; "pixelsPerBuffer"; "binsInSpectrum"; "inputLogicPolarity"]
            ++ driver_no_save
  | Reframe => ["postCount"; "averageSamples"] ++ driver_no_save
  | Traj => ["numPoints"; "enableCallbacks"; "computeStatistics"; "timeArray"; "cs"; "velocityMode";
             "userPrograms"; "pointsToBuild"] ++ each "use" cs_axis_names ++ each "positions" cs_axis_names
  | Cs => []
  | Odin => ["fileName"; "filePath"; "numCapture"]
  | Xspress => ["fileName"; "filePath"; "numCapture"; "numFramesChunks"]
  end.

(* the calls of those parts that put.  Reset file: whether there was a file to remove.  Setup of a
   driver: whether exposure is in its kwargs, whether there is an ExposureDeadtimeInfo, and (by
   Attributes) whether it has extra attributes; gated: hardware triggered and gated.  Write: whether
   it builds or appends, and the axes given.  ADCore/parts/hdfwriterpart.py 468-482, 517-627,
   positionlabellerpart.py 56-87, 140-160, statspluginpart.py 78-107, detectordriverpart.py 105-147,
   304-311, 337-439, xmap/parts/xmapdriverpart.py 21-51, adUtil/parts/reframepluginpart.py 63-118,
   pmac/parts/pmactrajectorypart.py 95-164, cspart.py 52-85, ADOdin/parts/odinwriterpart.py 386-441,
   xspress3/parts/xspresswriterpart.py 381-455 *)
Inductive call :=
| HdfConfigure | HdfSeek | HdfReset (file : bool)
| LabellerSetup | LabellerMore
| StatsConfigure | StatsReset (file : bool)
| DriverSetup (exposure deadtime : bool) | XmapSetup (exposure deadtime : bool)
| ReframeSetup (exposure gated : bool)
| Attributes (k : kind) | DriverReset (k : kind) (file : bool)
| TrajWrite (build : bool) (axes : list string)
| CsMove (axes : list string)
| OdinConfigure | OdinSeek | XspressConfigure | XspressSeek.
(* whose call it is; the calls all three kinds of driver have say whose they are:
   detectordriverpart.py 304, 377, and the classes that come from it (xmapdriverpart.py 18,
   reframepluginpart.py 22) *)
Definition caller (c : call) : kind :=
  match c with
  | HdfConfigure | HdfSeek | HdfReset _ => Hdf
  | LabellerSetup | LabellerMore => Labeller
  | StatsConfigure | StatsReset _ => Stats
  | DriverSetup _ _ => Driver
  | XmapSetup _ _ => Xmap
  | ReframeSetup _ _ => Reframe
  | Attributes k | DriverReset k _ => match k with Xmap => Xmap | Reframe => Reframe | _ => Driver end
  | TrajWrite _ _ => Traj
  | CsMove _ => Cs
  | OdinConfigure | OdinSeek => Odin
  | XspressConfigure | XspressSeek => Xspress
  end.

(* "k in child": core/views.py 60-100, detectordriverpart.py 132 *)
Definition has (b : block) (n : string) : bool := existsb (fun a => String.eqb (fst a) n) b.
(* detectordriverpart.py 126-136: the kwargs given, then the usual four if the child has them and they
   are not in the kwargs, in the order of the dict (they are put in sorted order) *)
Definition with_usual (b : block) (kwargs : list string) : list string :=
  kwargs ++ filter (fun n => negb (smem n kwargs) && has b n)
                   ["arrayCounter"; "imageMode"; "numImages"; "arrayCallbacks"].
(* detectordriverpart.py 105-147: setup_detector with these kwargs *)
Definition setup_puts (b : block) (kwargs : list string) (deadtime : bool) : list string :=
  with_usual b kwargs ++ (if deadtime then ["acquirePeriod"] else []).
(* detectordriverpart.py 337-347, configure's kwargs that get to setup_detector: at most exposure
   (319-334 configure_args_with_exposure) *)
Definition exposure_arg (e : bool) : list string := if e then ["exposure"] else [].

(* ADCore/parts/hdfwriterpart.py 141-160: set_dimensions *)
Definition dimension_puts : list string :=
  "numExtraDims" :: flat_map (fun s => [("posNameDim" ++ s)%string; ("extraDimSize" ++ s)%string]) suffixes.
(* the names put to the child block, in order; the order in one put_attribute_values is that of the
   code, not sorted (core/views.py 168-187), and the other calls to the child (start, delete, build)
   are left out.  ADCore/parts/hdfwriterpart.py 479-482, 534-585, 626; positionlabellerpart.py 76-85,
   157; statspluginpart.py 84-97, 104-107; detectordriverpart.py 105-147, 304-311, 423-439;
   xmap/parts/xmapdriverpart.py 32-51; adUtil/parts/reframepluginpart.py 84-118;
   pmac/parts/pmactrajectorypart.py 129-163; cspart.py 68-85; ADOdin/parts/odinwriterpart.py 386-392,
   441; xspress3/parts/xspresswriterpart.py 381, 395-401, 453 *)
Definition puts (c : call) : list string :=
  match c with
  | HdfConfigure =>
    ["positionMode"; "enableCallbacks"; "fileWriteMode"; "swmrMode"; "storeAttr"; "dimAttDatasets";
     "lazyOpen"; "arrayCounter"; "filePath"; "fileName"; "fileTemplate"]
    ++ dimension_puts ++ ["xmlLayout"; "flushDataPerNFrames"; "flushAttrPerNFrames"; "numCapture"]
  | HdfSeek => ["arrayCounter"]
  | HdfReset file => if file then ["xmlLayout"] else []
  | LabellerSetup => ["enableCallbacks"; "idStart"; "arrayCounter"; "xml"]
  | LabellerMore => ["xml"]
  | StatsConfigure => ["enableCallbacks"; "computeStatistics"; "attributesFile"]
  | StatsReset file => if file then ["attributesFile"] else []
  | DriverSetup e d => setup_puts (block_of Driver) (exposure_arg e) d
  | XmapSetup e d =>
    setup_puts (block_of Xmap)
      (["collectMode"; "pixelAdvanceMode"; "presetMode"; "ignoreGate"; "pixelsPerRun";
        "autoPixelsPerBuffer"; "pixelsPerBuffer"; "binsInSpectrum"; "inputLogicPolarity"] ++ exposure_arg e) d
  | ReframeSetup e gated =>
    filter (fun n => negb (String.eqb n "exposure")) (with_usual (block_of Reframe) (exposure_arg e))
    ++ (if gated then ["averageSamples"] else []) ++ ["postCount"]
  | Attributes _ => ["attributesFile"]
  | DriverReset _ file => if file then ["attributesFile"] else []
  | TrajWrite build axes =>
    (if build then "numPoints" :: "cs" :: each "use" cs_axis_names else [])
    ++ ["timeArray"; "pointsToBuild"; "velocityMode"; "userPrograms"]
    ++ each "positions" (filter (fun a => smem a axes) cs_axis_names)
  | CsMove axes =>
    ["deferMoves"; "csMoveTime"] ++ each "demand" (filter (fun a => smem a axes) cs_axis_names) ++ ["deferMoves"]
  | OdinConfigure => ["numCapture"; "filePath"; "fileName"]
  | OdinSeek => ["arrayCounter"]
  | XspressConfigure => ["numFramesChunks"; "numCapture"; "filePath"; "fileName"]
  | XspressSeek => ["arrayCounter"]
  end.

(* the error of a put: no such attribute (core/views.py 60-100, 176), or it cannot be written
   (core/controller.py 176-178) *)
Inductive perror := NoAttribute (n : string) | NotWriteable (n : string).
(* core/views.py 60-100, 168-187: the puts one after the other; those done, and the error that
   stopped them *)
Fixpoint carry_out (b : block) (l : list string) : list string * option perror :=
  match l with
  | [] => ([], None)
  | n :: r =>
    match dget n b with
    | None => ([], Some (NoAttribute n))
    | Some Ro => ([], Some (NotWriteable n))
    | Some _ => let (d, e) := carry_out b r in (n :: d, e)
    end
  end.

Section WithManager.
Context {V : Type}.
Variable none : V.
Variable vstr : string -> V.
Variable eqv : V -> V -> bool.
Variable same : V * V -> V * V -> bool.
Variable js : V -> V.
(* a call of the part of that name in a manager: the attributes of its child that it puts take
   values, any values, and the part is told (builtin/parts/childpart.py 318-343) *)
Definition call_ops (part : string) (c : call) (vals : list V) : list (@op V) :=
  map (fun nv => ChildSet part (fst nv) (snd nv)) (combine (fst (carry_out (block_of (caller c)) (puts c))) vals).
(* calls of parts by name, each with the values its puts bring: scanning/controllers/runnablecontroller.py
   hooks run the parts, 460-780 *)
Definition scan_ops (l : list (string * call * list V)) : list (@op V) :=
  flat_map (fun x => call_ops (fst (fst x)) (snd (fst x)) (snd x)) l.
End WithManager.
