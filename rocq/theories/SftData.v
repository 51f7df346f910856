(** Model of the four scattering factor tables of the library on top of its data files: src/diffpy/srreal/SFTXray.cpp,
    SFTElectron.cpp, SFTNeutron.cpp, SFTElectronNumber.cpp, with the common part of Tables.v and the data of Data.v. *)
From Coq Require Import Ascii String.
From Verif Require Import Base AList RBase PdfGrid Bvs Tables Data.
Open Scope R_scope.
Open Scope list_scope.

(** the four classes *)
Inductive radiation := SFTXray | SFTElectron | SFTNeutron | SFTElectronNumber.
(** type(), SFTXray.cpp:48-52, SFTElectron.cpp:49-53, SFTNeutron.cpp:49-53, SFTElectronNumber.cpp:48-52 *)
Definition sft_type (r : radiation) : string :=
  match r with SFTXray => "xray" | SFTElectron => "electron" | SFTNeutron => "neutron" | SFTElectronNumber => "electronnumber" end.
(** radiationType(), SFTXray.cpp:56-60, SFTElectron.cpp:57-61, SFTNeutron.cpp:57-61, SFTElectronNumber.cpp:56-60 *)
Definition radiationType (r : radiation) : string :=
  match r with SFTXray => "X" | SFTElectron => "E" | SFTNeutron => "N" | SFTElectronNumber => "EN" end.
(** standardLookup, SFTXray.cpp:63-66, SFTElectron.cpp:64-67, SFTNeutron.cpp:64-67, SFTElectronNumber.cpp:63-66: the function called *)
Definition std_call (r : radiation) (s : string) (q : R) : call :=
  let smbl := list_ascii_of_string s in
  match r with SFTXray => CXray smbl q | SFTElectron => CElectron smbl q | SFTNeutron => CNeutron smbl | SFTElectronNumber => CNumber smbl end.
(** the double that it returns; electronatstol returns DOUBLE_MAX at zero, scatteringfactordata.cpp:89 *)
Definition real_of (a : answer) : R := match a with AReal x => x | AHuge => DOUBLE_MAX | AInt z => IZR z | _ => 0 end.

Section SftData.
Variable num : str -> option R.
(** standardLookup with the static tables of the library; a failure to read a file is an exception, too *)
Definition standardLookup (r : radiation) (s : string) (q : R) (e : env) (L : lib) : lib * res R :=
  let '(L', x) := run_call num (std_call r s q) e L in (L', andThen x (fun a => Val (real_of a))).
(** lookup, ScatteringFactorTable.cpp:48-62 *)
Definition lookup (r : radiation) (t : sft) (s : string) (q : R) (e : env) (L : lib) : lib * res xreal :=
  match custom t s with
  | Some (src, scale) => let '(L', x) := standardLookup r src q e L in (L', andThen x (fun f => Val (xmul f scale)))
  | None => let '(L', x) := standardLookup r s q e L in (L', andThen x (fun f => Val (Fin f)))
  end.
(** one call of setCustomAs, resetCustom or resetAll, ScatteringFactorTable.cpp:65-100; an exception of standardLookup in line 79
    leaves the table as it was *)
Definition edit (r : radiation) (o : sftop) (t : sft) (e : env) (L : lib) : lib * sft * res unit :=
  match o with
  | SetAs s src => (L, setCustomAs s src t, Val tt)
  | SetVal s src v q =>
    match standardLookup r src q e L with
    | (L', Val f) => (L', put_entry s (src, xdiv v f) t, Val tt)
    | (L', Exc x) => (L', t, Exc x)
    | (L', Bad) => (L', t, Bad)
    end
  | Reset s => (L, sft_resetCustom s t, Val tt)
  | ResetAll => (L, sft_resetAll t, Val tt)
  end.
(** what a process does: lookups and changes of one table, and other calls of the library *)
Inductive uop := ULook (s : string) (q : R) | UEdit (o : sftop) | ULib (c : call).
Inductive reply := Looked (x : res xreal) | Edited (x : res unit) | Called (x : res answer).
Definition ustep (r : radiation) (u : uop) (e : env) (w : lib * sft) : lib * sft * reply :=
  let '(L, t) := w in
  match u with
  | ULook s q => let '(L', x) := lookup r t s q e L in (L', t, Looked x)
  | UEdit o => let '(L', t', x) := edit r o t e L in (L', t', Edited x)
  | ULib c => let '(L', x) := run_call num c e L in (L', t, Called x)
  end.
Fixpoint urun (r : radiation) (h : list (env * uop)) (w : lib * sft) : lib * sft * list reply :=
  match h with
  | [] => (w, [])
  | (e, u) :: h => let '(w', a) := ustep r u e w in let '(w'', l) := urun r h w' in (w'', a :: l)
  end.
End SftData.
