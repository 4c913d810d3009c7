(** The readers and entry points dascore ships: pyproject.toml 109-146 and the class
    attributes in dascore/io/*/core.py (class lines cited per module). A reader is its
    position in this list; loading an entry point defines every reader of its module.
    preferred_extensions of RSFV1 is the string "rsf", which iterates as letters
    (rsf/core.py 21, io/core.py 210). *)
From Verif Require Import Base FrameModel RegistryModel.
From Coq Require Import Strings.String.
Local Open Scope string_scope.
Local Open Scope Z_scope.
Local Open Scope list_scope.

Definition h5 : list string := ["hdf5"; "h5"].
Definition shipped_readers : list (string * string * list string * string) :=
  [ ("APSensing", "10", h5, "file");                     (* 0: ap_sensing/core.py 24 *)
    ("DASDAE", "1", ["h5"; "hdf5"], "file");             (* 1: dasdae/core.py 33 *)
    ("DASVader", "1", ["jld2"], "file");                 (* 2: dasvader/core.py 20 *)
    ("DASHDF5", "1.0", h5, "file");                      (* 3: dashdf5/core.py 26 *)
    ("H5Simple", "1", h5, "file");                       (* 4: h5simple/core.py 13 *)
    ("febus", "2", h5, "file");                          (* 5: febus/core.py 78 *)
    ("febus", "1", h5, "file");                          (* 6: febus/core.py 131 *)
    ("febus_g1_csv", "1", ["bsl"; "mtx"], "file");       (* 7: febus/core.py 140 *)
    ("febus_mtx_h5", "1", ["h5"; "hdf5"], "file");       (* 8: febus/core.py 180 *)
    ("febus_bsl_h5", "1", ["h5"; "hdf5"], "file");       (* 9: febus/core.py 236 *)
    ("FEBUS_T1", "1", h5, "file");                       (* 10: febus/core.py 287 *)
    ("NeubrexRFS", "1", h5, "file");                     (* 11: neubrex/core.py 40 *)
    ("NeubrexDAS", "1", h5, "file");                     (* 12: neubrex/core.py 90 *)
    ("OptoDAS", "8", h5, "file");                        (* 13: optodas/core.py 24 *)
    ("OptoDAS", "9", h5, "file");                        (* 14: optodas/core.py 70 *)
    ("OptoDAS", "10", h5, "file");                       (* 15: optodas/core.py 76 *)
    ("OptoDAS", "11", h5, "file");                       (* 16: optodas/core.py 82 *)
    ("SR4731", "200", ["sor"], "file");                  (* 17: sr4731/core.py 14 *)
    ("PICKLE", "", ["pkl"; "pickle"], "file");           (* 18: pickle/core.py 11 *)
    ("PRODML", "2.0", h5, "file");                       (* 19: prodml/core.py 26 *)
    ("PRODML", "2.1", h5, "file");                       (* 20: prodml/core.py 71 *)
    ("sentek", "5", ["das"], "file");                    (* 21: sentek/core.py 14 *)
    ("TDMS", "4713", ["tdms"], "file");                  (* 22: tdms/core.py 13 *)
    ("TERRA15", "4", h5, "file");                        (* 23: terra15/core.py 18 *)
    ("TERRA15", "5", h5, "file");                        (* 24: terra15/core.py 78 *)
    ("TERRA15", "6", h5, "file");                        (* 25: terra15/core.py 84 *)
    ("segy", "1.0", ["segy"; "sgy"], "file");            (* 26: segy/core.py 19 *)
    ("segy", "0.0", ["segy"; "sgy"], "file");            (* 27: segy/core.py 91 *)
    ("segy", "0.100", ["segy"; "sgy"], "file");          (* 28: segy/core.py 101 *)
    ("segy", "2.0", ["segy"; "sgy"], "file");            (* 29: segy/core.py 111 *)
    ("segy", "2.1", ["segy"; "sgy"], "file");            (* 30: segy/core.py 117 *)
    ("Silixa_H5", "1", h5, "file");                      (* 31: silixah5/core.py 26 *)
    ("Sintela_Binary", "3", ["raw"], "file");            (* 32: sintela_binary/core.py 30 *)
    ("rsf", "1", ["r"; "s"; "f"], "file");               (* 33: rsf/core.py 17 *)
    ("WAV", "", [], "file");                             (* 34: wav/core.py 16 *)
    ("XMLBinary", "1", [], "directory");                 (* 35: xml_binary/core.py 28 *)
    ("GDR_DAS", "1", h5, "file") ].                      (* 36: gdr/core.py 30 *)

Definition shipped_reader (x : Z) : string * string * list string * string :=
  match znth shipped_readers x with Some r => r | None => ("", "", [], "file") end.
Definition shipped : world :=
  mkWorld (fun x => fst (fst (fst (shipped_reader x)))) (fun x => snd (fst (fst (shipped_reader x))))
          (fun x => snd (fst (shipped_reader x))) (fun x => snd (shipped_reader x)).

Definition febus_module : list Z := [5; 6; 7; 8; 9; 10].
Definition optodas_module : list Z := [13; 14; 15; 16].
Definition segy_module : list Z := [26; 27; 28; 29; 30].
Definition shipped_eps : eps_t :=
  [ ("APSENSING__V10", [0]); ("DASDAE__V1", [1]); ("DASVADER__V1", [2]); ("DASHDF5__V1", [3]);
    ("H5SIMPLE__V1_0", [4]); ("FEBUS_G1_CSV__V1_0", febus_module); ("FEBUS_BSL_H5__V1", febus_module);
    ("FEBUS_MTX_H5__V1", febus_module); ("FEBUS__V1", febus_module); ("FEBUS__V2", febus_module);
    ("FEBUS_T1__V1", febus_module); ("NEUBREXRFS__V1", [11; 12]); ("NEUBREXDAS__V1", [11; 12]);
    ("OPTODAS__V8", optodas_module); ("OPTODAS__V9", optodas_module); ("OPTODAS__V10", optodas_module);
    ("OPTODAS__V11", optodas_module); ("SR4731__V200", [17]); ("PICKLE", [18]);
    ("PRODML__V2_0", [19; 20]); ("PRODML__V2_1", [19; 20]); ("SENTEK__V5", [21]); ("TDMS__V4713", [22]);
    ("TERRA15__V4", [23; 24; 25]); ("TERRA15__V5", [23; 24; 25]); ("TERRA15__V6", [23; 24; 25]);
    ("SEGY__V0_0", segy_module); ("SEGY__V0_100", segy_module); ("SEGY__V1_0", segy_module);
    ("SEGY__V2_0", segy_module); ("SEGY__V2_1", segy_module); ("SILIXA_H5__V1", [31]);
    ("SINTELA_BINARY__V3", [32]); ("RSF__V1", [33]); ("WAV", [34]); ("XMLBINARY__V1", [35]);
    ("GDR_DAS__V1", [36]) ].
