(** Model of src/lw/lw.cpp, the library writer: the text of PLibrary.hh and PLibrary.cc; and what the C interface calls of the library. *)
From Coq Require Import ZArith List Bool Ascii String.
From Verif Require Import Model.Outcome Model.Stream Model.Lw.
Import ListNotations.

(** A line of output. *)
Definition ln (s : text) : text := s ++ [nl].

(** 578-581, 763-766: the comment on top, with the time, version, url and commit as given by now() and version.hh. *)
Record stamp : Type := mkStamp { st_created : text; st_version : text; st_url : text; st_commit : text }.
Definition stamp_text (s : stamp) : text :=
  ln (txt "// created: " ++ st_created s) ++ ln (txt "// version: " ++ st_version s) ++ ln (txt "// url: " ++ st_url s) ++
  ln (txt "// commit: " ++ st_commit s) ++ [nl].

(** The class template and the last parameter of the checkout functions of each block (616-743, 797-994). *)
Definition kind_text (k : outkind) : text :=
  match k with
  | KSimpleFunction => txt "PSimpleFunction" | KFunction => txt "PFunction" | KBasisSet => txt "PBasisSet" | KSimpleBase => txt "PSimpleBase"
  | KFuncBase => txt "PFuncBase" | KPwSimpleBase => txt "PPieceWiseSimpleBase" | KPwFuncBase => txt "PPieceWiseFuncBase" | KBasisSetBase => txt "PBasisSetBase"
  end.
Definition param_text (k : outkind) : text :=
  match k with
  | KSimpleFunction => txt "&simplefunc" | KFunction => txt "&func" | KBasisSet => txt "&basis_set, int N" | KSimpleBase => txt "*&simplefunc"
  | KFuncBase => txt "*&func" | KPwSimpleBase => txt "*&simplefunc" | KPwFuncBase => txt "*&func" | KBasisSetBase => txt "*&basis_set, int N"
  end.
(** The name that is assigned (804-994), and the alias of the first three blocks (803, 816, 842, 863). *)
Definition var_text (k : outkind) : text :=
  match k with
  | KSimpleFunction | KSimpleBase | KPwSimpleBase => txt "simplefunc"
  | KFunction | KFuncBase | KPwFuncBase => txt "func"
  | KBasisSet | KBasisSetBase => txt "basis_set"
  end.
Definition alias_text (k : outkind) : option text :=
  match k with KSimpleFunction => Some (txt "psf") | KFunction => Some (txt "pf") | KBasisSet => Some (txt "pbs") | _ => None end.
(** The arguments of the constructor: N for basis sets (865, 997). *)
Definition ctor_text (k : outkind) : text := match k with KBasisSet | KBasisSetBase => txt "(N)" | _ => txt "()" end.

(** PSimpleFunction< in, out >  and the like. *)
Definition type_text (k : outkind) (it ot : text) : text := kind_text k ++ txt "< " ++ it ++ txt ", " ++ ot ++ txt " >".

(** One declaration (616-743). *)
Definition decl_text (k : outkind) (it ot : text) : text :=
  txt "        void checkout( std::string name, " ++ type_text k it ot ++ txt " " ++ param_text k ++ txt ");" ++ [nl].

(** Class< var >  or  Class. *)
Definition class_text (n : text) (arg : option text) : text :=
  n ++ match arg with Some v => txt "< " ++ v ++ txt " >" | None => [] end.

(** One case of a checkout function (805, 807, 818, 820, 844, 855, 865 and 889-997). *)
Definition case_text (k : outkind) (n : text) (arg : option text) : text :=
  txt "            if( name == """ ++ n ++ txt """) { " ++ var_text k ++ txt " = " ++
  match alias_text k with
  | Some a => a ++ txt "( " ++ class_text n arg ++ ctor_text k ++ txt " )"
  | None => txt "new " ++ class_text n arg ++ ctor_text k
  end ++ txt "; return;}" ++ [nl].

(** One definition (800-810, 814-823, 839-847 and the like). The throw of a PSimpleFunction checkout for a container stands behind an else (808). *)
Definition def_text (k : outkind) (it ot : text) (arg : option text) (ns : list text) : text :=
  txt "        void PLibrary::checkout( std::string name, " ++ type_text k it ot ++ txt " " ++ param_text k ++ txt ")" ++ [nl] ++
  txt "        {" ++ [nl] ++
  match alias_text k with Some a => txt "            typedef " ++ type_text k it ot ++ txt " " ++ a ++ txt ";" ++ [nl] | None => [] end ++
  flat_map (fun n => case_text k n arg) ns ++
  txt "            " ++ match k, arg with KSimpleFunction, Some _ => txt "else " | _, _ => [] end ++
  txt "throw std::runtime_error( """ ++ type_text k it ot ++ txt " "" + name + "" was not found in the PLibrary"");" ++ [nl] ++
  txt "        }" ++ [nl].

(** The loops over i, j and k of one block of write_header and of write_source, as in [header_block] and [source_block]; here they write text. *)
Definition header_text_block (var : list text) (c : coll) (k : outkind) (t : tab) : outcome text :=
  for_types c (fun i j it ot =>
    let* names := cell t c i j in
    if Nat.ltb 0 (List.length names) then
      Ok (match t with
          | TBasis => decl_text k it ot
          | _ => flat_map (fun v => decl_text k (fst v) ot) (instances var it)
          end)
    else Ok []).
Definition source_text_block (var : list text) (c : coll) (k : outkind) (guards listed : list tab) (basis : bool) : outcome text :=
  for_types c (fun i j it ot =>
    let* gs := for_list (fun _ t => cell t c i j) 0 guards in
    let* ns := for_list (fun _ t => cell t c i j) 0 listed in
    if Nat.ltb 0 (List.length gs) then
      Ok (if basis then def_text k it ot None ns
          else flat_map (fun v => def_text k (fst v) ot (snd v) ns) (instances var it))
    else Ok []).

(** 571-754: write_header. *)
Definition header_text (st : stamp) (var : list text) (c : coll) : outcome text :=
  let* a := header_text_block var c KSimpleFunction TSimple in
  let* b := header_text_block var c KFunction TFunc in
  let* d := header_text_block var c KBasisSet TBasis in
  let* e := header_text_block var c KSimpleBase TSimple in
  let* f := header_text_block var c KFuncBase TFunc in
  let* g := header_text_block var c KPwSimpleBase TPwSimple in
  let* h := header_text_block var c KPwFuncBase TPwFunc in
  let* l := header_text_block var c KBasisSetBase TBasis in
  Ok (stamp_text st ++
      ln (txt "#ifndef PLIBRARY_HH") ++ ln (txt "#define PLIBRARY_HH") ++ ln [] ++ ln (txt "#include<cstring>") ++ ln (txt "#include<vector>") ++
      ln (txt "#include ""IntegrationTools/PFunction.hh""") ++ ln (txt "#include ""IntegrationTools/PPieceWise.hh""") ++ ln [] ++
      ln (txt "namespace PRISMS") ++ ln (txt "{") ++ ln [] ++ ln (txt "    /// Library where you can find functions and basis sets") ++ ln (txt "    ///") ++
      ln (txt "    namespace PLibrary") ++ ln (txt "    {") ++
      ln (txt "        // Use these functions to checkout objects which manage their own memory") ++ ln [] ++
      a ++ ln [] ++ b ++ ln [] ++ d ++ ln [] ++ ln [] ++ ln [] ++
      ln (txt "        // Use these functions to checkout new 'Base' objects which the user must delete") ++ ln [] ++
      e ++ ln [] ++ f ++ ln [] ++ g ++ ln [] ++ h ++ ln [] ++ l ++
      ln (txt "    }") ++ ln [] ++ ln (txt "}") ++ ln [] ++ ln [] ++ ln (txt "#endif")).

(** 756-1010: write_source. *)
Definition source_text (st : stamp) (var : list text) (c : coll) : outcome text :=
  let* a := source_text_block var c KSimpleFunction [TSimple] [TSimple; TPwSimple] false in
  let* b := source_text_block var c KFunction [TFunc] [TFunc] false in
  let* d := source_text_block var c KBasisSet [TBasis] [TBasis] true in
  let* e := source_text_block var c KSimpleBase [TSimple; TPwSimple] [TSimple] false in
  let* f := source_text_block var c KFuncBase [TFunc; TPwFunc] [TFunc] false in
  let* g := source_text_block var c KPwSimpleBase [TPwSimple] [TPwSimple] false in
  let* h := source_text_block var c KPwFuncBase [TPwFunc] [TPwFunc] false in
  let* l := source_text_block var c KBasisSetBase [TBasis] [TBasis] true in
  Ok (stamp_text st ++
      ln (txt "#ifndef PLIBRARY_CC") ++ ln (txt "#define PLIBRARY_CC") ++ ln [] ++ ln (txt "#include<cstring>") ++ ln (txt "#include<stdexcept>") ++
      ln (txt "#include<vector>") ++ flat_map (fun f => ln (txt "#include """ ++ f ++ txt """")) (co_file c) ++ ln (txt "#include ""PLibrary.hh""") ++ ln [] ++
      ln (txt "namespace PRISMS") ++ ln (txt "{") ++ ln [] ++
      a ++ ln [] ++ b ++ ln [] ++ d ++ ln [] ++ ln [] ++ ln [] ++
      e ++ ln [] ++ f ++ ln [] ++ g ++ ln [] ++ h ++ ln [] ++ l ++
      ln [] ++ ln (txt "}") ++ ln [] ++ ln [] ++ ln (txt "#endif")).

(** ** The C interface *)

(** extern/PLibraryExtern.hh 17-37: the checkout functions declared for the C interface. *)
Definition extern_declared : list sig :=
  [ mkSig KSimpleFunction (txt "double") (txt "double"); mkSig KSimpleFunction (txt "std::vector<double>") (txt "double");
    mkSig KSimpleFunction (txt "double*") (txt "double");
    mkSig KFunction (txt "std::vector<double>") (txt "double"); mkSig KFunction (txt "double*") (txt "double");
    mkSig KBasisSet (txt "double") (txt "double");
    mkSig KSimpleBase (txt "double") (txt "double"); mkSig KSimpleBase (txt "std::vector<double>") (txt "double");
    mkSig KSimpleBase (txt "double*") (txt "double");
    mkSig KFuncBase (txt "std::vector<double>") (txt "double"); mkSig KFuncBase (txt "double*") (txt "double");
    mkSig KBasisSetBase (txt "double") (txt "double") ].

(** PExtern.cc 25, 58, 91, 178, 301 (and the copy of it that lw writes, lw.cpp 1012-1585): the checkout functions called. *)
Definition extern_called : list sig :=
  [ mkSig KSimpleBase (txt "double*") (txt "double"); mkSig KSimpleBase (txt "double") (txt "double"); mkSig KFuncBase (txt "double*") (txt "double");
    mkSig KBasisSetBase (txt "double") (txt "double"); mkSig KBasisSet (txt "double") (txt "double") ].
