(** Model of the sample library tests/testlib: the texts of its generated functions, as they stand in the files, and the tables that select
    them. (Ownership and storage of the objects: Wrapper.v, FuncObj.v, PFlex.v, BasisSet.v.) *)
From Coq Require Import ZArith List Bool Ascii String.
From Verif Require Import Model.Outcome Model.Num Model.Stream Model.PSimple Model.FuncObj Model.BasisSet Model.Piecewise Model.CExpr.
Import ListNotations.
Local Open Scope Z_scope.
Local Open Scope string_scope.

(** A class derived from PSimpleBase: its name, the expression its eval returns, and the texts its csrc() and sym() return. *)
Record sclass : Type := mkSclass { sc_name : string; sc_eval : string; sc_csrc : string; sc_sym : string }.

(** Monomial.hh 10-2606. *)
Definition monomial_classes : list sclass :=
  [ mkSclass "Monomial_0" "1.0" "1.0" "1";
    mkSclass "Monomial_1" "var" "var" "x";
    mkSclass "Monomial_2" "(var*var)" "(var*var)" "x^2";
    mkSclass "Monomial_3" "(var*var*var)" "(var*var*var)" "x^3";
    mkSclass "Monomial_4" "((var*var)*(var*var))" "((var*var)*(var*var))" "x^4";
    mkSclass "Monomial_5" "(var*(var*var)*(var*var))" "(var*(var*var)*(var*var))" "x^5";
    mkSclass "Monomial_6" "((var*var*var)*(var*var*var))" "((var*var*var)*(var*var*var))" "x^6";
    mkSclass "Monomial_7" "(var*(var*var*var)*(var*var*var))" "(var*(var*var*var)*(var*var*var))" "x^7";
    mkSclass "Monomial_8" "(((var*var)*(var*var))*((var*var)*(var*var)))" "(((var*var)*(var*var))*((var*var)*(var*var)))" "x^8";
    mkSclass "Monomial_9" "(var*((var*var)*(var*var))*((var*var)*(var*var)))" "(var*((var*var)*(var*var))*((var*var)*(var*var)))" "x^9";
    mkSclass "Monomial_10" "((var*(var*var)*(var*var))*(var*(var*var)*(var*var)))" "((var*(var*var)*(var*var))*(var*(var*var)*(var*var)))" "x^10";
    mkSclass "Monomial_11" "(var*(var*(var*var)*(var*var))*(var*(var*var)*(var*var)))" "(var*(var*(var*var)*(var*var))*(var*(var*var)*(var*var)))" "x^11";
    mkSclass "Monomial_12" "(((var*var*var)*(var*var*var))*((var*var*var)*(var*var*var)))" "(((var*var*var)*(var*var*var))*((var*var*var)*(var*var*var)))" "x^12";
    mkSclass "Monomial_13" "(var*((var*var*var)*(var*var*var))*((var*var*var)*(var*var*var)))" "(var*((var*var*var)*(var*var*var))*((var*var*var)*(var*var*var)))" "x^13";
    mkSclass "Monomial_14" "((var*(var*var*var)*(var*var*var))*(var*(var*var*var)*(var*var*var)))" "((var*(var*var*var)*(var*var*var))*(var*(var*var*var)*(var*var*var)))" "x^14";
    mkSclass "Monomial_15" "(var*(var*(var*var*var)*(var*var*var))*(var*(var*var*var)*(var*var*var)))" "(var*(var*(var*var*var)*(var*var*var))*(var*(var*var*var)*(var*var*var)))" "x^15";
    mkSclass "Monomial_16" "((((var*var)*(var*var))*((var*var)*(var*var)))*(((var*var)*(var*var))*((var*var)*(var*var))))" "((((var*var)*(var*var))*((var*var)*(var*var)))*(((var*var)*(var*var))*((var*var)*(var*var))))" "x^16";
    mkSclass "Monomial_17" "(var*(((var*var)*(var*var))*((var*var)*(var*var)))*(((var*var)*(var*var))*((var*var)*(var*var))))" "(var*(((var*var)*(var*var))*((var*var)*(var*var)))*(((var*var)*(var*var))*((var*var)*(var*var))))" "x^17";
    mkSclass "Monomial_18" "((var*((var*var)*(var*var))*((var*var)*(var*var)))*(var*((var*var)*(var*var))*((var*var)*(var*var))))" "((var*((var*var)*(var*var))*((var*var)*(var*var)))*(var*((var*var)*(var*var))*((var*var)*(var*var))))" "x^18";
    mkSclass "Monomial_19" "(var*(var*((var*var)*(var*var))*((var*var)*(var*var)))*(var*((var*var)*(var*var))*((var*var)*(var*var))))" "(var*(var*((var*var)*(var*var))*((var*var)*(var*var)))*(var*((var*var)*(var*var))*((var*var)*(var*var))))" "x^19";
    mkSclass "Monomial_20" "(((var*(var*var)*(var*var))*(var*(var*var)*(var*var)))*((var*(var*var)*(var*var))*(var*(var*var)*(var*var))))" "(((var*(var*var)*(var*var))*(var*(var*var)*(var*var)))*((var*(var*var)*(var*var))*(var*(var*var)*(var*var))))" "x^20";
    mkSclass "Monomial_21" "(var*((var*(var*var)*(var*var))*(var*(var*var)*(var*var)))*((var*(var*var)*(var*var))*(var*(var*var)*(var*var))))" "(var*((var*(var*var)*(var*var))*(var*(var*var)*(var*var)))*((var*(var*var)*(var*var))*(var*(var*var)*(var*var))))" "x^21";
    mkSclass "Monomial_22" "((var*(var*(var*var)*(var*var))*(var*(var*var)*(var*var)))*(var*(var*(var*var)*(var*var))*(var*(var*var)*(var*var))))" "((var*(var*(var*var)*(var*var))*(var*(var*var)*(var*var)))*(var*(var*(var*var)*(var*var))*(var*(var*var)*(var*var))))" "x^22";
    mkSclass "Monomial_23" "(var*(var*(var*(var*var)*(var*var))*(var*(var*var)*(var*var)))*(var*(var*(var*var)*(var*var))*(var*(var*var)*(var*var))))" "(var*(var*(var*(var*var)*(var*var))*(var*(var*var)*(var*var)))*(var*(var*(var*var)*(var*var))*(var*(var*var)*(var*var))))" "x^23";
    mkSclass "Monomial_24" "((((var*var*var)*(var*var*var))*((var*var*var)*(var*var*var)))*(((var*var*var)*(var*var*var))*((var*var*var)*(var*var*var))))" "((((var*var*var)*(var*var*var))*((var*var*var)*(var*var*var)))*(((var*var*var)*(var*var*var))*((var*var*var)*(var*var*var))))" "x^24";
    mkSclass "Monomial_25" "(var*(((var*var*var)*(var*var*var))*((var*var*var)*(var*var*var)))*(((var*var*var)*(var*var*var))*((var*var*var)*(var*var*var))))" "(var*(((var*var*var)*(var*var*var))*((var*var*var)*(var*var*var)))*(((var*var*var)*(var*var*var))*((var*var*var)*(var*var*var))))" "x^25";
    mkSclass "Monomial_26" "((var*((var*var*var)*(var*var*var))*((var*var*var)*(var*var*var)))*(var*((var*var*var)*(var*var*var))*((var*var*var)*(var*var*var))))" "((var*((var*var*var)*(var*var*var))*((var*var*var)*(var*var*var)))*(var*((var*var*var)*(var*var*var))*((var*var*var)*(var*var*var))))" "x^26";
    mkSclass "Monomial_27" "(var*(var*((var*var*var)*(var*var*var))*((var*var*var)*(var*var*var)))*(var*((var*var*var)*(var*var*var))*((var*var*var)*(var*var*var))))" "(var*(var*((var*var*var)*(var*var*var))*((var*var*var)*(var*var*var)))*(var*((var*var*var)*(var*var*var))*((var*var*var)*(var*var*var))))" "x^27";
    mkSclass "Monomial_28" "(((var*(var*var*var)*(var*var*var))*(var*(var*var*var)*(var*var*var)))*((var*(var*var*var)*(var*var*var))*(var*(var*var*var)*(var*var*var))))" "(((var*(var*var*var)*(var*var*var))*(var*(var*var*var)*(var*var*var)))*((var*(var*var*var)*(var*var*var))*(var*(var*var*var)*(var*var*var))))" "x^28";
    mkSclass "Monomial_29" "(var*((var*(var*var*var)*(var*var*var))*(var*(var*var*var)*(var*var*var)))*((var*(var*var*var)*(var*var*var))*(var*(var*var*var)*(var*var*var))))" "(var*((var*(var*var*var)*(var*var*var))*(var*(var*var*var)*(var*var*var)))*((var*(var*var*var)*(var*var*var))*(var*(var*var*var)*(var*var*var))))" "x^29";
    mkSclass "Monomial_0_grad" "0.0" "0.0" "0";
    mkSclass "Monomial_1_grad" "1.0" "1.0" "1";
    mkSclass "Monomial_2_grad" "2.0*var" "2.0*var" "2*x";
    mkSclass "Monomial_3_grad" "3.0*(var*var)" "3.0*(var*var)" "3*x^2";
    mkSclass "Monomial_4_grad" "4.0*(var*var*var)" "4.0*(var*var*var)" "4*x^3";
    mkSclass "Monomial_5_grad" "5.0*((var*var)*(var*var))" "5.0*((var*var)*(var*var))" "5*x^4";
    mkSclass "Monomial_6_grad" "6.0*(var*(var*var)*(var*var))" "6.0*(var*(var*var)*(var*var))" "6*x^5";
    mkSclass "Monomial_7_grad" "7.0*((var*var*var)*(var*var*var))" "7.0*((var*var*var)*(var*var*var))" "7*x^6";
    mkSclass "Monomial_8_grad" "8.0*(var*(var*var*var)*(var*var*var))" "8.0*(var*(var*var*var)*(var*var*var))" "8*x^7";
    mkSclass "Monomial_9_grad" "9.0*(((var*var)*(var*var))*((var*var)*(var*var)))" "9.0*(((var*var)*(var*var))*((var*var)*(var*var)))" "9*x^8";
    mkSclass "Monomial_10_grad" "10.0*(var*((var*var)*(var*var))*((var*var)*(var*var)))" "10.0*(var*((var*var)*(var*var))*((var*var)*(var*var)))" "10*x^9";
    mkSclass "Monomial_11_grad" "11.0*((var*(var*var)*(var*var))*(var*(var*var)*(var*var)))" "11.0*((var*(var*var)*(var*var))*(var*(var*var)*(var*var)))" "11*x^10";
    mkSclass "Monomial_12_grad" "12.0*(var*(var*(var*var)*(var*var))*(var*(var*var)*(var*var)))" "12.0*(var*(var*(var*var)*(var*var))*(var*(var*var)*(var*var)))" "12*x^11";
    mkSclass "Monomial_13_grad" "13.0*(((var*var*var)*(var*var*var))*((var*var*var)*(var*var*var)))" "13.0*(((var*var*var)*(var*var*var))*((var*var*var)*(var*var*var)))" "13*x^12";
    mkSclass "Monomial_14_grad" "14.0*(var*((var*var*var)*(var*var*var))*((var*var*var)*(var*var*var)))" "14.0*(var*((var*var*var)*(var*var*var))*((var*var*var)*(var*var*var)))" "14*x^13";
    mkSclass "Monomial_15_grad" "15.0*((var*(var*var*var)*(var*var*var))*(var*(var*var*var)*(var*var*var)))" "15.0*((var*(var*var*var)*(var*var*var))*(var*(var*var*var)*(var*var*var)))" "15*x^14";
    mkSclass "Monomial_16_grad" "16.0*(var*(var*(var*var*var)*(var*var*var))*(var*(var*var*var)*(var*var*var)))" "16.0*(var*(var*(var*var*var)*(var*var*var))*(var*(var*var*var)*(var*var*var)))" "16*x^15";
    mkSclass "Monomial_17_grad" "17.0*((((var*var)*(var*var))*((var*var)*(var*var)))*(((var*var)*(var*var))*((var*var)*(var*var))))" "17.0*((((var*var)*(var*var))*((var*var)*(var*var)))*(((var*var)*(var*var))*((var*var)*(var*var))))" "17*x^16";
    mkSclass "Monomial_18_grad" "18.0*(var*(((var*var)*(var*var))*((var*var)*(var*var)))*(((var*var)*(var*var))*((var*var)*(var*var))))" "18.0*(var*(((var*var)*(var*var))*((var*var)*(var*var)))*(((var*var)*(var*var))*((var*var)*(var*var))))" "18*x^17";
    mkSclass "Monomial_19_grad" "19.0*((var*((var*var)*(var*var))*((var*var)*(var*var)))*(var*((var*var)*(var*var))*((var*var)*(var*var))))" "19.0*((var*((var*var)*(var*var))*((var*var)*(var*var)))*(var*((var*var)*(var*var))*((var*var)*(var*var))))" "19*x^18";
    mkSclass "Monomial_20_grad" "20.0*(var*(var*((var*var)*(var*var))*((var*var)*(var*var)))*(var*((var*var)*(var*var))*((var*var)*(var*var))))" "20.0*(var*(var*((var*var)*(var*var))*((var*var)*(var*var)))*(var*((var*var)*(var*var))*((var*var)*(var*var))))" "20*x^19";
    mkSclass "Monomial_21_grad" "21.0*(((var*(var*var)*(var*var))*(var*(var*var)*(var*var)))*((var*(var*var)*(var*var))*(var*(var*var)*(var*var))))" "21.0*(((var*(var*var)*(var*var))*(var*(var*var)*(var*var)))*((var*(var*var)*(var*var))*(var*(var*var)*(var*var))))" "21*x^20";
    mkSclass "Monomial_22_grad" "22.0*(var*((var*(var*var)*(var*var))*(var*(var*var)*(var*var)))*((var*(var*var)*(var*var))*(var*(var*var)*(var*var))))" "22.0*(var*((var*(var*var)*(var*var))*(var*(var*var)*(var*var)))*((var*(var*var)*(var*var))*(var*(var*var)*(var*var))))" "22*x^21";
    mkSclass "Monomial_23_grad" "23.0*((var*(var*(var*var)*(var*var))*(var*(var*var)*(var*var)))*(var*(var*(var*var)*(var*var))*(var*(var*var)*(var*var))))" "23.0*((var*(var*(var*var)*(var*var))*(var*(var*var)*(var*var)))*(var*(var*(var*var)*(var*var))*(var*(var*var)*(var*var))))" "23*x^22";
    mkSclass "Monomial_24_grad" "24.0*(var*(var*(var*(var*var)*(var*var))*(var*(var*var)*(var*var)))*(var*(var*(var*var)*(var*var))*(var*(var*var)*(var*var))))" "24.0*(var*(var*(var*(var*var)*(var*var))*(var*(var*var)*(var*var)))*(var*(var*(var*var)*(var*var))*(var*(var*var)*(var*var))))" "24*x^23";
    mkSclass "Monomial_25_grad" "25.0*((((var*var*var)*(var*var*var))*((var*var*var)*(var*var*var)))*(((var*var*var)*(var*var*var))*((var*var*var)*(var*var*var))))" "25.0*((((var*var*var)*(var*var*var))*((var*var*var)*(var*var*var)))*(((var*var*var)*(var*var*var))*((var*var*var)*(var*var*var))))" "25*x^24";
    mkSclass "Monomial_26_grad" "26.0*(var*(((var*var*var)*(var*var*var))*((var*var*var)*(var*var*var)))*(((var*var*var)*(var*var*var))*((var*var*var)*(var*var*var))))" "26.0*(var*(((var*var*var)*(var*var*var))*((var*var*var)*(var*var*var)))*(((var*var*var)*(var*var*var))*((var*var*var)*(var*var*var))))" "26*x^25";
    mkSclass "Monomial_27_grad" "27.0*((var*((var*var*var)*(var*var*var))*((var*var*var)*(var*var*var)))*(var*((var*var*var)*(var*var*var))*((var*var*var)*(var*var*var))))" "27.0*((var*((var*var*var)*(var*var*var))*((var*var*var)*(var*var*var)))*(var*((var*var*var)*(var*var*var))*((var*var*var)*(var*var*var))))" "27*x^26";
    mkSclass "Monomial_28_grad" "28.0*(var*(var*((var*var*var)*(var*var*var))*((var*var*var)*(var*var*var)))*(var*((var*var*var)*(var*var*var))*((var*var*var)*(var*var*var))))" "28.0*(var*(var*((var*var*var)*(var*var*var))*((var*var*var)*(var*var*var)))*(var*((var*var*var)*(var*var*var))*((var*var*var)*(var*var*var))))" "28*x^27";
    mkSclass "Monomial_29_grad" "29.0*(((var*(var*var*var)*(var*var*var))*(var*(var*var*var)*(var*var*var)))*((var*(var*var*var)*(var*var*var))*(var*(var*var*var)*(var*var*var))))" "29.0*(((var*(var*var*var)*(var*var*var))*(var*(var*var*var)*(var*var*var)))*((var*(var*var*var)*(var*var*var))*(var*(var*var*var)*(var*var*var))))" "29*x^28";
    mkSclass "Monomial_0_hess" "0.0" "0.0" "0";
    mkSclass "Monomial_1_hess" "0.0" "0.0" "0";
    mkSclass "Monomial_2_hess" "2.0" "2.0" "2";
    mkSclass "Monomial_3_hess" "6.0*var" "6.0*var" "6*x";
    mkSclass "Monomial_4_hess" "12.0*(var*var)" "12.0*(var*var)" "12*x^2";
    mkSclass "Monomial_5_hess" "20.0*(var*var*var)" "20.0*(var*var*var)" "20*x^3";
    mkSclass "Monomial_6_hess" "30.0*((var*var)*(var*var))" "30.0*((var*var)*(var*var))" "30*x^4";
    mkSclass "Monomial_7_hess" "42.0*(var*(var*var)*(var*var))" "42.0*(var*(var*var)*(var*var))" "42*x^5";
    mkSclass "Monomial_8_hess" "56.0*((var*var*var)*(var*var*var))" "56.0*((var*var*var)*(var*var*var))" "56*x^6";
    mkSclass "Monomial_9_hess" "72.0*(var*(var*var*var)*(var*var*var))" "72.0*(var*(var*var*var)*(var*var*var))" "72*x^7";
    mkSclass "Monomial_10_hess" "90.0*(((var*var)*(var*var))*((var*var)*(var*var)))" "90.0*(((var*var)*(var*var))*((var*var)*(var*var)))" "90*x^8";
    mkSclass "Monomial_11_hess" "110.0*(var*((var*var)*(var*var))*((var*var)*(var*var)))" "110.0*(var*((var*var)*(var*var))*((var*var)*(var*var)))" "110*x^9";
    mkSclass "Monomial_12_hess" "132.0*((var*(var*var)*(var*var))*(var*(var*var)*(var*var)))" "132.0*((var*(var*var)*(var*var))*(var*(var*var)*(var*var)))" "132*x^10";
    mkSclass "Monomial_13_hess" "156.0*(var*(var*(var*var)*(var*var))*(var*(var*var)*(var*var)))" "156.0*(var*(var*(var*var)*(var*var))*(var*(var*var)*(var*var)))" "156*x^11";
    mkSclass "Monomial_14_hess" "182.0*(((var*var*var)*(var*var*var))*((var*var*var)*(var*var*var)))" "182.0*(((var*var*var)*(var*var*var))*((var*var*var)*(var*var*var)))" "182*x^12";
    mkSclass "Monomial_15_hess" "210.0*(var*((var*var*var)*(var*var*var))*((var*var*var)*(var*var*var)))" "210.0*(var*((var*var*var)*(var*var*var))*((var*var*var)*(var*var*var)))" "210*x^13";
    mkSclass "Monomial_16_hess" "240.0*((var*(var*var*var)*(var*var*var))*(var*(var*var*var)*(var*var*var)))" "240.0*((var*(var*var*var)*(var*var*var))*(var*(var*var*var)*(var*var*var)))" "240*x^14";
    mkSclass "Monomial_17_hess" "272.0*(var*(var*(var*var*var)*(var*var*var))*(var*(var*var*var)*(var*var*var)))" "272.0*(var*(var*(var*var*var)*(var*var*var))*(var*(var*var*var)*(var*var*var)))" "272*x^15";
    mkSclass "Monomial_18_hess" "306.0*((((var*var)*(var*var))*((var*var)*(var*var)))*(((var*var)*(var*var))*((var*var)*(var*var))))" "306.0*((((var*var)*(var*var))*((var*var)*(var*var)))*(((var*var)*(var*var))*((var*var)*(var*var))))" "306*x^16";
    mkSclass "Monomial_19_hess" "342.0*(var*(((var*var)*(var*var))*((var*var)*(var*var)))*(((var*var)*(var*var))*((var*var)*(var*var))))" "342.0*(var*(((var*var)*(var*var))*((var*var)*(var*var)))*(((var*var)*(var*var))*((var*var)*(var*var))))" "342*x^17";
    mkSclass "Monomial_20_hess" "380.0*((var*((var*var)*(var*var))*((var*var)*(var*var)))*(var*((var*var)*(var*var))*((var*var)*(var*var))))" "380.0*((var*((var*var)*(var*var))*((var*var)*(var*var)))*(var*((var*var)*(var*var))*((var*var)*(var*var))))" "380*x^18";
    mkSclass "Monomial_21_hess" "420.0*(var*(var*((var*var)*(var*var))*((var*var)*(var*var)))*(var*((var*var)*(var*var))*((var*var)*(var*var))))" "420.0*(var*(var*((var*var)*(var*var))*((var*var)*(var*var)))*(var*((var*var)*(var*var))*((var*var)*(var*var))))" "420*x^19";
    mkSclass "Monomial_22_hess" "462.0*(((var*(var*var)*(var*var))*(var*(var*var)*(var*var)))*((var*(var*var)*(var*var))*(var*(var*var)*(var*var))))" "462.0*(((var*(var*var)*(var*var))*(var*(var*var)*(var*var)))*((var*(var*var)*(var*var))*(var*(var*var)*(var*var))))" "462*x^20";
    mkSclass "Monomial_23_hess" "506.0*(var*((var*(var*var)*(var*var))*(var*(var*var)*(var*var)))*((var*(var*var)*(var*var))*(var*(var*var)*(var*var))))" "506.0*(var*((var*(var*var)*(var*var))*(var*(var*var)*(var*var)))*((var*(var*var)*(var*var))*(var*(var*var)*(var*var))))" "506*x^21";
    mkSclass "Monomial_24_hess" "552.0*((var*(var*(var*var)*(var*var))*(var*(var*var)*(var*var)))*(var*(var*(var*var)*(var*var))*(var*(var*var)*(var*var))))" "552.0*((var*(var*(var*var)*(var*var))*(var*(var*var)*(var*var)))*(var*(var*(var*var)*(var*var))*(var*(var*var)*(var*var))))" "552*x^22";
    mkSclass "Monomial_25_hess" "600.0*(var*(var*(var*(var*var)*(var*var))*(var*(var*var)*(var*var)))*(var*(var*(var*var)*(var*var))*(var*(var*var)*(var*var))))" "600.0*(var*(var*(var*(var*var)*(var*var))*(var*(var*var)*(var*var)))*(var*(var*(var*var)*(var*var))*(var*(var*var)*(var*var))))" "600*x^23";
    mkSclass "Monomial_26_hess" "650.0*((((var*var*var)*(var*var*var))*((var*var*var)*(var*var*var)))*(((var*var*var)*(var*var*var))*((var*var*var)*(var*var*var))))" "650.0*((((var*var*var)*(var*var*var))*((var*var*var)*(var*var*var)))*(((var*var*var)*(var*var*var))*((var*var*var)*(var*var*var))))" "650*x^24";
    mkSclass "Monomial_27_hess" "702.0*(var*(((var*var*var)*(var*var*var))*((var*var*var)*(var*var*var)))*(((var*var*var)*(var*var*var))*((var*var*var)*(var*var*var))))" "702.0*(var*(((var*var*var)*(var*var*var))*((var*var*var)*(var*var*var)))*(((var*var*var)*(var*var*var))*((var*var*var)*(var*var*var))))" "702*x^25";
    mkSclass "Monomial_28_hess" "756.0*((var*((var*var*var)*(var*var*var))*((var*var*var)*(var*var*var)))*(var*((var*var*var)*(var*var*var))*((var*var*var)*(var*var*var))))" "756.0*((var*((var*var*var)*(var*var*var))*((var*var*var)*(var*var*var)))*(var*((var*var*var)*(var*var*var))*((var*var*var)*(var*var*var))))" "756*x^26";
    mkSclass "Monomial_29_hess" "812.0*(var*(var*((var*var*var)*(var*var*var))*((var*var*var)*(var*var*var)))*(var*((var*var*var)*(var*var*var))*((var*var*var)*(var*var*var))))" "812.0*(var*(var*((var*var*var)*(var*var*var))*((var*var*var)*(var*var*var)))*(var*((var*var*var)*(var*var*var))*((var*var*var)*(var*var*var))))" "812*x^27" ].

(** Monomial.hh 2672-2851: the classes selected by switch(term), cases 0 to 29: value, gradient, Hessian. *)
Definition monomial_cases : list (string * string * string) :=
  [ ("Monomial_0", "Monomial_0_grad", "Monomial_0_hess");
    ("Monomial_1", "Monomial_1_grad", "Monomial_1_hess");
    ("Monomial_2", "Monomial_2_grad", "Monomial_2_hess");
    ("Monomial_3", "Monomial_3_grad", "Monomial_3_hess");
    ("Monomial_4", "Monomial_4_grad", "Monomial_4_hess");
    ("Monomial_5", "Monomial_5_grad", "Monomial_5_hess");
    ("Monomial_6", "Monomial_6_grad", "Monomial_6_hess");
    ("Monomial_7", "Monomial_7_grad", "Monomial_7_hess");
    ("Monomial_8", "Monomial_8_grad", "Monomial_8_hess");
    ("Monomial_9", "Monomial_9_grad", "Monomial_9_hess");
    ("Monomial_10", "Monomial_10_grad", "Monomial_10_hess");
    ("Monomial_11", "Monomial_11_grad", "Monomial_11_hess");
    ("Monomial_12", "Monomial_12_grad", "Monomial_12_hess");
    ("Monomial_13", "Monomial_13_grad", "Monomial_13_hess");
    ("Monomial_14", "Monomial_14_grad", "Monomial_14_hess");
    ("Monomial_15", "Monomial_15_grad", "Monomial_15_hess");
    ("Monomial_16", "Monomial_16_grad", "Monomial_16_hess");
    ("Monomial_17", "Monomial_17_grad", "Monomial_17_hess");
    ("Monomial_18", "Monomial_18_grad", "Monomial_18_hess");
    ("Monomial_19", "Monomial_19_grad", "Monomial_19_hess");
    ("Monomial_20", "Monomial_20_grad", "Monomial_20_hess");
    ("Monomial_21", "Monomial_21_grad", "Monomial_21_hess");
    ("Monomial_22", "Monomial_22_grad", "Monomial_22_hess");
    ("Monomial_23", "Monomial_23_grad", "Monomial_23_hess");
    ("Monomial_24", "Monomial_24_grad", "Monomial_24_hess");
    ("Monomial_25", "Monomial_25_grad", "Monomial_25_hess");
    ("Monomial_26", "Monomial_26_grad", "Monomial_26_hess");
    ("Monomial_27", "Monomial_27_grad", "Monomial_27_hess");
    ("Monomial_28", "Monomial_28_grad", "Monomial_28_hess");
    ("Monomial_29", "Monomial_29_grad", "Monomial_29_hess") ].

(** Chebyshev.hh 10-2606. *)
Definition chebyshev_classes : list sclass :=
  [ mkSclass "Chebyshev_0" "1.0000000000000000e+00" "1.0000000000000000e+00" "1.0";
    mkSclass "Chebyshev_1" "var" "var" "x";
    mkSclass "Chebyshev_2" " 2.0*(var*var)-1.0000000000000000e+00" " 2.0*(var*var)-1.0000000000000000e+00" "-1.0+2*x^2";
    mkSclass "Chebyshev_3" " -3.0000000000000000e+00*var+4.0*(var*var*var)" " -3.0000000000000000e+00*var+4.0*(var*var*var)" "4*x^3-(3.0)*x";
    mkSclass "Chebyshev_4" " 8.0*((var*var)*(var*var))+-8.0000000000000000e+00*(var*var)+1.0000000000000000e+00" " 8.0*((var*var)*(var*var))+-8.0000000000000000e+00*(var*var)+1.0000000000000000e+00" "1.0-(8.0)*x^2+8*x^4";
    mkSclass "Chebyshev_5" " 5.0000000000000000e+00*var+16.0*(var*(var*var)*(var*var))+-2.0000000000000000e+01*(var*var*var)" " 5.0000000000000000e+00*var+16.0*(var*(var*var)*(var*var))+-2.0000000000000000e+01*(var*var*var)" "-(20.0)*x^3+(5.0)*x+16*x^5";
    mkSclass "Chebyshev_6" " 32.0*((var*var*var)*(var*var*var))+-4.8000000000000000e+01*((var*var)*(var*var))+1.8000000000000000e+01*(var*var)-1.0000000000000000e+00" " 32.0*((var*var*var)*(var*var*var))+-4.8000000000000000e+01*((var*var)*(var*var))+1.8000000000000000e+01*(var*var)-1.0000000000000000e+00" "-1.0+(18.0)*x^2+32*x^6-(48.0)*x^4";
    mkSclass "Chebyshev_7" " -7.0000000000000000e+00*var+64.0*(var*(var*var*var)*(var*var*var))+-1.1200000000000000e+02*(var*(var*var)*(var*var))+5.6000000000000000e+01*(var*var*var)" " -7.0000000000000000e+00*var+64.0*(var*(var*var*var)*(var*var*var))+-1.1200000000000000e+02*(var*(var*var)*(var*var))+5.6000000000000000e+01*(var*var*var)" "(56.0)*x^3-(7.0)*x+64*x^7-(112.0)*x^5";
    mkSclass "Chebyshev_8" " -2.5600000000000000e+02*((var*var*var)*(var*var*var))+1.6000000000000000e+02*((var*var)*(var*var))+-3.2000000000000000e+01*(var*var)+128.0*(((var*var)*(var*var))*((var*var)*(var*var)))+1.0000000000000000e+00" " -2.5600000000000000e+02*((var*var*var)*(var*var*var))+1.6000000000000000e+02*((var*var)*(var*var))+-3.2000000000000000e+01*(var*var)+128.0*(((var*var)*(var*var))*((var*var)*(var*var)))+1.0000000000000000e+00" "1.0-(32.0)*x^2+128*x^8-(256.0)*x^6+(160.0)*x^4";
    mkSclass "Chebyshev_9" " 9.0000000000000000e+00*var+-5.7600000000000000e+02*(var*(var*var*var)*(var*var*var))+4.3200000000000000e+02*(var*(var*var)*(var*var))+-1.2000000000000000e+02*(var*var*var)+256.0*(var*((var*var)*(var*var))*((var*var)*(var*var)))" " 9.0000000000000000e+00*var+-5.7600000000000000e+02*(var*(var*var*var)*(var*var*var))+4.3200000000000000e+02*(var*(var*var)*(var*var))+-1.2000000000000000e+02*(var*var*var)+256.0*(var*((var*var)*(var*var))*((var*var)*(var*var)))" "-(120.0)*x^3+256*x^9+(9.0)*x-(576.0)*x^7+(432.0)*x^5";
    mkSclass "Chebyshev_10" " 512.0*((var*(var*var)*(var*var))*(var*(var*var)*(var*var)))+1.1200000000000000e+03*((var*var*var)*(var*var*var))+-4.0000000000000000e+02*((var*var)*(var*var))+5.0000000000000000e+01*(var*var)+-1.2800000000000000e+03*(((var*var)*(var*var))*((var*var)*(var*var)))-1.0000000000000000e+00" " 512.0*((var*(var*var)*(var*var))*(var*(var*var)*(var*var)))+1.1200000000000000e+03*((var*var*var)*(var*var*var))+-4.0000000000000000e+02*((var*var)*(var*var))+5.0000000000000000e+01*(var*var)+-1.2800000000000000e+03*(((var*var)*(var*var))*((var*var)*(var*var)))-1.0000000000000000e+00" "-1.0+(50.0)*x^2-(1280.0)*x^8+512*x^10+(1120.0)*x^6-(400.0)*x^4";
    mkSclass "Chebyshev_11" " -1.1000000000000000e+01*var+2.8160000000000000e+03*(var*(var*var*var)*(var*var*var))+-1.2320000000000000e+03*(var*(var*var)*(var*var))+2.2000000000000000e+02*(var*var*var)+-2.8160000000000000e+03*(var*((var*var)*(var*var))*((var*var)*(var*var)))+1024.0*(var*(var*(var*var)*(var*var))*(var*(var*var)*(var*var)))" " -1.1000000000000000e+01*var+2.8160000000000000e+03*(var*(var*var*var)*(var*var*var))+-1.2320000000000000e+03*(var*(var*var)*(var*var))+2.2000000000000000e+02*(var*var*var)+-2.8160000000000000e+03*(var*((var*var)*(var*var))*((var*var)*(var*var)))+1024.0*(var*(var*(var*var)*(var*var))*(var*(var*var)*(var*var)))" "(220.0)*x^3+1024*x^11-(2816.0)*x^9-(11.0)*x+(2816.0)*x^7-(1232.0)*x^5";
    mkSclass "Chebyshev_12" " -6.1440000000000000e+03*((var*(var*var)*(var*var))*(var*(var*var)*(var*var)))+2048.0*(((var*var*var)*(var*var*var))*((var*var*var)*(var*var*var)))+-3.5840000000000000e+03*((var*var*var)*(var*var*var))+8.4000000000000000e+02*((var*var)*(var*var))+-7.2000000000000000e+01*(var*var)+6.9120000000000000e+03*(((var*var)*(var*var))*((var*var)*(var*var)))+1.0000000000000000e+00" " -6.1440000000000000e+03*((var*(var*var)*(var*var))*(var*(var*var)*(var*var)))+2048.0*(((var*var*var)*(var*var*var))*((var*var*var)*(var*var*var)))+-3.5840000000000000e+03*((var*var*var)*(var*var*var))+8.4000000000000000e+02*((var*var)*(var*var))+-7.2000000000000000e+01*(var*var)+6.9120000000000000e+03*(((var*var)*(var*var))*((var*var)*(var*var)))+1.0000000000000000e+00" "1.0-(72.0)*x^2+(6912.0)*x^8+2048*x^12-(6144.0)*x^10-(3584.0)*x^6+(840.0)*x^4";
    mkSclass "Chebyshev_13" " 1.3000000000000000e+01*var+-9.9840000000000000e+03*(var*(var*var*var)*(var*var*var))+2.9120000000000000e+03*(var*(var*var)*(var*var))+4096.0*(var*((var*var*var)*(var*var*var))*((var*var*var)*(var*var*var)))+-3.6400000000000000e+02*(var*var*var)+1.6640000000000000e+04*(var*((var*var)*(var*var))*((var*var)*(var*var)))+-1.3312000000000000e+04*(var*(var*(var*var)*(var*var))*(var*(var*var)*(var*var)))" " 1.3000000000000000e+01*var+-9.9840000000000000e+03*(var*(var*var*var)*(var*var*var))+2.9120000000000000e+03*(var*(var*var)*(var*var))+4096.0*(var*((var*var*var)*(var*var*var))*((var*var*var)*(var*var*var)))+-3.6400000000000000e+02*(var*var*var)+1.6640000000000000e+04*(var*((var*var)*(var*var))*((var*var)*(var*var)))+-1.3312000000000000e+04*(var*(var*(var*var)*(var*var))*(var*(var*var)*(var*var)))" "-(364.0)*x^3+4096*x^13-(13312.0)*x^11+(16640.0)*x^9+(13.0)*x-(9984.0)*x^7+(2912.0)*x^5";
    mkSclass "Chebyshev_14" " 8192.0*((var*(var*var*var)*(var*var*var))*(var*(var*var*var)*(var*var*var)))+3.9424000000000000e+04*((var*(var*var)*(var*var))*(var*(var*var)*(var*var)))+-2.8672000000000000e+04*(((var*var*var)*(var*var*var))*((var*var*var)*(var*var*var)))+9.4080000000000000e+03*((var*var*var)*(var*var*var))+-1.5680000000000000e+03*((var*var)*(var*var))+9.8000000000000000e+01*(var*var)+-2.6880000000000000e+04*(((var*var)*(var*var))*((var*var)*(var*var)))-1.0000000000000000e+00" " 8192.0*((var*(var*var*var)*(var*var*var))*(var*(var*var*var)*(var*var*var)))+3.9424000000000000e+04*((var*(var*var)*(var*var))*(var*(var*var)*(var*var)))+-2.8672000000000000e+04*(((var*var*var)*(var*var*var))*((var*var*var)*(var*var*var)))+9.4080000000000000e+03*((var*var*var)*(var*var*var))+-1.5680000000000000e+03*((var*var)*(var*var))+9.8000000000000000e+01*(var*var)+-2.6880000000000000e+04*(((var*var)*(var*var))*((var*var)*(var*var)))-1.0000000000000000e+00" "-1.0+(98.0)*x^2-(26880.0)*x^8+8192*x^14-(28672.0)*x^12+(39424.0)*x^10+(9408.0)*x^6-(1568.0)*x^4";
    mkSclass "Chebyshev_15" " -1.5000000000000000e+01*var+2.8800000000000000e+04*(var*(var*var*var)*(var*var*var))+-6.0480000000000000e+03*(var*(var*var)*(var*var))+16384.0*(var*(var*(var*var*var)*(var*var*var))*(var*(var*var*var)*(var*var*var)))+-6.1440000000000000e+04*(var*((var*var*var)*(var*var*var))*((var*var*var)*(var*var*var)))+5.6000000000000000e+02*(var*var*var)+-7.0400000000000000e+04*(var*((var*var)*(var*var))*((var*var)*(var*var)))+9.2160000000000000e+04*(var*(var*(var*var)*(var*var))*(var*(var*var)*(var*var)))" " -1.5000000000000000e+01*var+2.8800000000000000e+04*(var*(var*var*var)*(var*var*var))+-6.0480000000000000e+03*(var*(var*var)*(var*var))+16384.0*(var*(var*(var*var*var)*(var*var*var))*(var*(var*var*var)*(var*var*var)))+-6.1440000000000000e+04*(var*((var*var*var)*(var*var*var))*((var*var*var)*(var*var*var)))+5.6000000000000000e+02*(var*var*var)+-7.0400000000000000e+04*(var*((var*var)*(var*var))*((var*var)*(var*var)))+9.2160000000000000e+04*(var*(var*(var*var)*(var*var))*(var*(var*var)*(var*var)))" "(560.0)*x^3+16384*x^15-(61440.0)*x^13+(92160.0)*x^11-(70400.0)*x^9-(15.0)*x+(28800.0)*x^7-(6048.0)*x^5";
    mkSclass "Chebyshev_16" " -1.3107200000000000e+05*((var*(var*var*var)*(var*var*var))*(var*(var*var*var)*(var*var*var)))+-1.8022400000000000e+05*((var*(var*var)*(var*var))*(var*(var*var)*(var*var)))+2.1299200000000000e+05*(((var*var*var)*(var*var*var))*((var*var*var)*(var*var*var)))+-2.1504000000000000e+04*((var*var*var)*(var*var*var))+2.6880000000000000e+03*((var*var)*(var*var))+32768.0*((((var*var)*(var*var))*((var*var)*(var*var)))*(((var*var)*(var*var))*((var*var)*(var*var))))+-1.2800000000000000e+02*(var*var)+8.4480000000000000e+04*(((var*var)*(var*var))*((var*var)*(var*var)))+1.0000000000000000e+00" " -1.3107200000000000e+05*((var*(var*var*var)*(var*var*var))*(var*(var*var*var)*(var*var*var)))+-1.8022400000000000e+05*((var*(var*var)*(var*var))*(var*(var*var)*(var*var)))+2.1299200000000000e+05*(((var*var*var)*(var*var*var))*((var*var*var)*(var*var*var)))+-2.1504000000000000e+04*((var*var*var)*(var*var*var))+2.6880000000000000e+03*((var*var)*(var*var))+32768.0*((((var*var)*(var*var))*((var*var)*(var*var)))*(((var*var)*(var*var))*((var*var)*(var*var))))+-1.2800000000000000e+02*(var*var)+8.4480000000000000e+04*(((var*var)*(var*var))*((var*var)*(var*var)))+1.0000000000000000e+00" "1.0+32768*x^16-(128.0)*x^2+(84480.0)*x^8-(131072.0)*x^14+(212992.0)*x^12-(180224.0)*x^10-(21504.0)*x^6+(2688.0)*x^4";
    mkSclass "Chebyshev_17" " 1.7000000000000000e+01*var+-7.1808000000000000e+04*(var*(var*var*var)*(var*var*var))+65536.0*(var*(((var*var)*(var*var))*((var*var)*(var*var)))*(((var*var)*(var*var))*((var*var)*(var*var))))+1.1424000000000000e+04*(var*(var*var)*(var*var))+-2.7852800000000000e+05*(var*(var*(var*var*var)*(var*var*var))*(var*(var*var*var)*(var*var*var)))+4.8742400000000000e+05*(var*((var*var*var)*(var*var*var))*((var*var*var)*(var*var*var)))+-8.1600000000000000e+02*(var*var*var)+2.3936000000000000e+05*(var*((var*var)*(var*var))*((var*var)*(var*var)))+-4.5260800000000000e+05*(var*(var*(var*var)*(var*var))*(var*(var*var)*(var*var)))" " 1.7000000000000000e+01*var+-7.1808000000000000e+04*(var*(var*var*var)*(var*var*var))+65536.0*(var*(((var*var)*(var*var))*((var*var)*(var*var)))*(((var*var)*(var*var))*((var*var)*(var*var))))+1.1424000000000000e+04*(var*(var*var)*(var*var))+-2.7852800000000000e+05*(var*(var*(var*var*var)*(var*var*var))*(var*(var*var*var)*(var*var*var)))+4.8742400000000000e+05*(var*((var*var*var)*(var*var*var))*((var*var*var)*(var*var*var)))+-8.1600000000000000e+02*(var*var*var)+2.3936000000000000e+05*(var*((var*var)*(var*var))*((var*var)*(var*var)))+-4.5260800000000000e+05*(var*(var*(var*var)*(var*var))*(var*(var*var)*(var*var)))" "-(816.0)*x^3-(278528.0)*x^15+(487424.0)*x^13-(452608.0)*x^11+(239360.0)*x^9+(17.0)*x-(71808.0)*x^7+65536*x^17+(11424.0)*x^5";
    mkSclass "Chebyshev_18" " 1.1059200000000000e+06*((var*(var*var*var)*(var*var*var))*(var*(var*var*var)*(var*var*var)))+131072.0*((var*((var*var)*(var*var))*((var*var)*(var*var)))*(var*((var*var)*(var*var))*((var*var)*(var*var))))+6.5894400000000000e+05*((var*(var*var)*(var*var))*(var*(var*var)*(var*var)))+-1.1182080000000000e+06*(((var*var*var)*(var*var*var))*((var*var*var)*(var*var*var)))+4.4352000000000000e+04*((var*var*var)*(var*var*var))+-4.3200000000000000e+03*((var*var)*(var*var))+-5.8982400000000000e+05*((((var*var)*(var*var))*((var*var)*(var*var)))*(((var*var)*(var*var))*((var*var)*(var*var))))+1.6200000000000000e+02*(var*var)+-2.2809600000000000e+05*(((var*var)*(var*var))*((var*var)*(var*var)))-1.0000000000000000e+00" " 1.1059200000000000e+06*((var*(var*var*var)*(var*var*var))*(var*(var*var*var)*(var*var*var)))+131072.0*((var*((var*var)*(var*var))*((var*var)*(var*var)))*(var*((var*var)*(var*var))*((var*var)*(var*var))))+6.5894400000000000e+05*((var*(var*var)*(var*var))*(var*(var*var)*(var*var)))+-1.1182080000000000e+06*(((var*var*var)*(var*var*var))*((var*var*var)*(var*var*var)))+4.4352000000000000e+04*((var*var*var)*(var*var*var))+-4.3200000000000000e+03*((var*var)*(var*var))+-5.8982400000000000e+05*((((var*var)*(var*var))*((var*var)*(var*var)))*(((var*var)*(var*var))*((var*var)*(var*var))))+1.6200000000000000e+02*(var*var)+-2.2809600000000000e+05*(((var*var)*(var*var))*((var*var)*(var*var)))-1.0000000000000000e+00" "-1.0-(589824.0)*x^16+(162.0)*x^2-(228096.0)*x^8+131072*x^18+(1105920.0)*x^14-(1118208.0)*x^12+(658944.0)*x^10+(44352.0)*x^6-(4320.0)*x^4";
    mkSclass "Chebyshev_19" " -1.9000000000000000e+01*var+1.6051200000000000e+05*(var*(var*var*var)*(var*var*var))+-1.2451840000000000e+06*(var*(((var*var)*(var*var))*((var*var)*(var*var)))*(((var*var)*(var*var))*((var*var)*(var*var))))+-2.0064000000000000e+04*(var*(var*var)*(var*var))+2.4903680000000000e+06*(var*(var*(var*var*var)*(var*var*var))*(var*(var*var*var)*(var*var*var)))+-2.7238400000000000e+06*(var*((var*var*var)*(var*var*var))*((var*var*var)*(var*var*var)))+1.1400000000000000e+03*(var*var*var)+-6.9555200000000000e+05*(var*((var*var)*(var*var))*((var*var)*(var*var)))+1.7704960000000000e+06*(var*(var*(var*var)*(var*var))*(var*(var*var)*(var*var)))+262144.0*(var*(var*((var*var)*(var*var))*((var*var)*(var*var)))*(var*((var*var)*(var*var))*((var*var)*(var*var))))" " -1.9000000000000000e+01*var+1.6051200000000000e+05*(var*(var*var*var)*(var*var*var))+-1.2451840000000000e+06*(var*(((var*var)*(var*var))*((var*var)*(var*var)))*(((var*var)*(var*var))*((var*var)*(var*var))))+-2.0064000000000000e+04*(var*(var*var)*(var*var))+2.4903680000000000e+06*(var*(var*(var*var*var)*(var*var*var))*(var*(var*var*var)*(var*var*var)))+-2.7238400000000000e+06*(var*((var*var*var)*(var*var*var))*((var*var*var)*(var*var*var)))+1.1400000000000000e+03*(var*var*var)+-6.9555200000000000e+05*(var*((var*var)*(var*var))*((var*var)*(var*var)))+1.7704960000000000e+06*(var*(var*(var*var)*(var*var))*(var*(var*var)*(var*var)))+262144.0*(var*(var*((var*var)*(var*var))*((var*var)*(var*var)))*(var*((var*var)*(var*var))*((var*var)*(var*var))))" "(1140.0)*x^3+(2490368.0)*x^15-(2723840.0)*x^13+(1770496.0)*x^11-(695552.0)*x^9+262144*x^19-(19.0)*x+(160512.0)*x^7-(1245184.0)*x^17-(20064.0)*x^5";
    mkSclass "Chebyshev_20" " -6.5536000000000000e+06*((var*(var*var*var)*(var*var*var))*(var*(var*var*var)*(var*var*var)))+-2.6214400000000000e+06*((var*((var*var)*(var*var))*((var*var)*(var*var)))*(var*((var*var)*(var*var))*((var*var)*(var*var))))+-2.0500480000000000e+06*((var*(var*var)*(var*var))*(var*(var*var)*(var*var)))+4.6592000000000000e+06*(((var*var*var)*(var*var*var))*((var*var*var)*(var*var*var)))+-8.4480000000000000e+04*((var*var*var)*(var*var*var))+6.6000000000000000e+03*((var*var)*(var*var))+5.5705600000000000e+06*((((var*var)*(var*var))*((var*var)*(var*var)))*(((var*var)*(var*var))*((var*var)*(var*var))))+524288.0*(((var*(var*var)*(var*var))*(var*(var*var)*(var*var)))*((var*(var*var)*(var*var))*(var*(var*var)*(var*var))))+-2.0000000000000000e+02*(var*var)+5.4912000000000000e+05*(((var*var)*(var*var))*((var*var)*(var*var)))+1.0000000000000000e+00" " -6.5536000000000000e+06*((var*(var*var*var)*(var*var*var))*(var*(var*var*var)*(var*var*var)))+-2.6214400000000000e+06*((var*((var*var)*(var*var))*((var*var)*(var*var)))*(var*((var*var)*(var*var))*((var*var)*(var*var))))+-2.0500480000000000e+06*((var*(var*var)*(var*var))*(var*(var*var)*(var*var)))+4.6592000000000000e+06*(((var*var*var)*(var*var*var))*((var*var*var)*(var*var*var)))+-8.4480000000000000e+04*((var*var*var)*(var*var*var))+6.6000000000000000e+03*((var*var)*(var*var))+5.5705600000000000e+06*((((var*var)*(var*var))*((var*var)*(var*var)))*(((var*var)*(var*var))*((var*var)*(var*var))))+524288.0*(((var*(var*var)*(var*var))*(var*(var*var)*(var*var)))*((var*(var*var)*(var*var))*(var*(var*var)*(var*var))))+-2.0000000000000000e+02*(var*var)+5.4912000000000000e+05*(((var*var)*(var*var))*((var*var)*(var*var)))+1.0000000000000000e+00" "1.0+524288*x^20+(5570560.0)*x^16-(200.0)*x^2+(549120.0)*x^8-(2621440.0)*x^18-(6553600.0)*x^14+(4659200.0)*x^12-(2050048.0)*x^10-(84480.0)*x^6+(6600.0)*x^4";
    mkSclass "Chebyshev_21" " 2.1000000000000000e+01*var+1048576.0*(var*((var*(var*var)*(var*var))*(var*(var*var)*(var*var)))*((var*(var*var)*(var*var))*(var*(var*var)*(var*var))))+-3.2947200000000000e+05*(var*(var*var*var)*(var*var*var))+1.2386304000000000e+07*(var*(((var*var)*(var*var))*((var*var)*(var*var)))*(((var*var)*(var*var))*((var*var)*(var*var))))+3.3264000000000000e+04*(var*(var*var)*(var*var))+-1.5597568000000000e+07*(var*(var*(var*var*var)*(var*var*var))*(var*(var*var*var)*(var*var*var)))+1.2042240000000000e+07*(var*((var*var*var)*(var*var*var))*((var*var*var)*(var*var*var)))+-1.5400000000000000e+03*(var*var*var)+1.7937920000000000e+06*(var*((var*var)*(var*var))*((var*var)*(var*var)))+-5.8705920000000000e+06*(var*(var*(var*var)*(var*var))*(var*(var*var)*(var*var)))+-5.5050240000000000e+06*(var*(var*((var*var)*(var*var))*((var*var)*(var*var)))*(var*((var*var)*(var*var))*((var*var)*(var*var))))" " 2.1000000000000000e+01*var+1048576.0*(var*((var*(var*var)*(var*var))*(var*(var*var)*(var*var)))*((var*(var*var)*(var*var))*(var*(var*var)*(var*var))))+-3.2947200000000000e+05*(var*(var*var*var)*(var*var*var))+1.2386304000000000e+07*(var*(((var*var)*(var*var))*((var*var)*(var*var)))*(((var*var)*(var*var))*((var*var)*(var*var))))+3.3264000000000000e+04*(var*(var*var)*(var*var))+-1.5597568000000000e+07*(var*(var*(var*var*var)*(var*var*var))*(var*(var*var*var)*(var*var*var)))+1.2042240000000000e+07*(var*((var*var*var)*(var*var*var))*((var*var*var)*(var*var*var)))+-1.5400000000000000e+03*(var*var*var)+1.7937920000000000e+06*(var*((var*var)*(var*var))*((var*var)*(var*var)))+-5.8705920000000000e+06*(var*(var*(var*var)*(var*var))*(var*(var*var)*(var*var)))+-5.5050240000000000e+06*(var*(var*((var*var)*(var*var))*((var*var)*(var*var)))*(var*((var*var)*(var*var))*((var*var)*(var*var))))" "-(1540.0)*x^3-(1.5597568E7)*x^15+(1.204224E7)*x^13-(5870592.0)*x^11+(1793792.0)*x^9-(5505024.0)*x^19+1048576*x^21+(21.0)*x-(329472.0)*x^7+(1.2386304E7)*x^17+(33264.0)*x^5";
    mkSclass "Chebyshev_22" " 3.0638080000000000e+07*((var*(var*var*var)*(var*var*var))*(var*(var*var*var)*(var*var*var)))+2.7394048000000000e+07*((var*((var*var)*(var*var))*((var*var)*(var*var)))*(var*((var*var)*(var*var))*((var*var)*(var*var))))+5.6376320000000000e+06*((var*(var*var)*(var*var))*(var*(var*var)*(var*var)))+-1.6400384000000000e+07*(((var*var*var)*(var*var*var))*((var*var*var)*(var*var*var)))+1.5100800000000000e+05*((var*var*var)*(var*var*var))+-9.6800000000000000e+03*((var*var)*(var*var))+2097152.0*((var*(var*(var*var)*(var*var))*(var*(var*var)*(var*var)))*(var*(var*(var*var)*(var*var))*(var*(var*var)*(var*var))))+-3.6765696000000000e+07*((((var*var)*(var*var))*((var*var)*(var*var)))*(((var*var)*(var*var))*((var*var)*(var*var))))+-1.1534336000000000e+07*(((var*(var*var)*(var*var))*(var*(var*var)*(var*var)))*((var*(var*var)*(var*var))*(var*(var*var)*(var*var))))+2.4200000000000000e+02*(var*var)+-1.2080640000000000e+06*(((var*var)*(var*var))*((var*var)*(var*var)))-1.0000000000000000e+00" " 3.0638080000000000e+07*((var*(var*var*var)*(var*var*var))*(var*(var*var*var)*(var*var*var)))+2.7394048000000000e+07*((var*((var*var)*(var*var))*((var*var)*(var*var)))*(var*((var*var)*(var*var))*((var*var)*(var*var))))+5.6376320000000000e+06*((var*(var*var)*(var*var))*(var*(var*var)*(var*var)))+-1.6400384000000000e+07*(((var*var*var)*(var*var*var))*((var*var*var)*(var*var*var)))+1.5100800000000000e+05*((var*var*var)*(var*var*var))+-9.6800000000000000e+03*((var*var)*(var*var))+2097152.0*((var*(var*(var*var)*(var*var))*(var*(var*var)*(var*var)))*(var*(var*(var*var)*(var*var))*(var*(var*var)*(var*var))))+-3.6765696000000000e+07*((((var*var)*(var*var))*((var*var)*(var*var)))*(((var*var)*(var*var))*((var*var)*(var*var))))+-1.1534336000000000e+07*(((var*(var*var)*(var*var))*(var*(var*var)*(var*var)))*((var*(var*var)*(var*var))*(var*(var*var)*(var*var))))+2.4200000000000000e+02*(var*var)+-1.2080640000000000e+06*(((var*var)*(var*var))*((var*var)*(var*var)))-1.0000000000000000e+00" "-1.0-(1.1534336E7)*x^20-(3.6765696E7)*x^16+(242.0)*x^2-(1208064.0)*x^8+(2.7394048E7)*x^18+(3.063808E7)*x^14-(1.6400384E7)*x^12+(5637632.0)*x^10+(151008.0)*x^6-(9680.0)*x^4+2097152*x^22";
    mkSclass "Chebyshev_23" " -2.3000000000000000e+01*var+4194304.0*(var*(var*(var*(var*var)*(var*var))*(var*(var*var)*(var*var)))*(var*(var*(var*var)*(var*var))*(var*(var*var)*(var*var))))+-2.4117248000000000e+07*(var*((var*(var*var)*(var*var))*(var*(var*var)*(var*var)))*((var*(var*var)*(var*var))*(var*(var*var)*(var*var))))+6.3148800000000000e+05*(var*(var*var*var)*(var*var*var))+-8.5917696000000000e+07*(var*(((var*var)*(var*var))*((var*var)*(var*var)))*(((var*var)*(var*var))*((var*var)*(var*var))))+-5.2624000000000000e+04*(var*(var*var)*(var*var))+7.6873728000000000e+07*(var*(var*(var*var*var)*(var*var*var))*(var*(var*var*var)*(var*var*var)))+-4.4843008000000000e+07*(var*((var*var*var)*(var*var*var))*((var*var*var)*(var*var*var)))+2.0240000000000000e+03*(var*var*var)+-4.2099200000000000e+06*(var*((var*var)*(var*var))*((var*var)*(var*var)))+1.7145856000000000e+07*(var*(var*(var*var)*(var*var))*(var*(var*var)*(var*var)))+6.0293120000000000e+07*(var*(var*((var*var)*(var*var))*((var*var)*(var*var)))*(var*((var*var)*(var*var))*((var*var)*(var*var))))" " -2.3000000000000000e+01*var+4194304.0*(var*(var*(var*(var*var)*(var*var))*(var*(var*var)*(var*var)))*(var*(var*(var*var)*(var*var))*(var*(var*var)*(var*var))))+-2.4117248000000000e+07*(var*((var*(var*var)*(var*var))*(var*(var*var)*(var*var)))*((var*(var*var)*(var*var))*(var*(var*var)*(var*var))))+6.3148800000000000e+05*(var*(var*var*var)*(var*var*var))+-8.5917696000000000e+07*(var*(((var*var)*(var*var))*((var*var)*(var*var)))*(((var*var)*(var*var))*((var*var)*(var*var))))+-5.2624000000000000e+04*(var*(var*var)*(var*var))+7.6873728000000000e+07*(var*(var*(var*var*var)*(var*var*var))*(var*(var*var*var)*(var*var*var)))+-4.4843008000000000e+07*(var*((var*var*var)*(var*var*var))*((var*var*var)*(var*var*var)))+2.0240000000000000e+03*(var*var*var)+-4.2099200000000000e+06*(var*((var*var)*(var*var))*((var*var)*(var*var)))+1.7145856000000000e+07*(var*(var*(var*var)*(var*var))*(var*(var*var)*(var*var)))+6.0293120000000000e+07*(var*(var*((var*var)*(var*var))*((var*var)*(var*var)))*(var*((var*var)*(var*var))*((var*var)*(var*var))))" "(2024.0)*x^3+(7.6873728E7)*x^15-(4.4843008E7)*x^13+(1.7145856E7)*x^11-(4209920.0)*x^9+(6.029312E7)*x^19+4194304*x^23-(2.4117248E7)*x^21-(23.0)*x+(631488.0)*x^7-(8.5917696E7)*x^17-(52624.0)*x^5";
    mkSclass "Chebyshev_24" " -1.2032409600000000e+08*((var*(var*var*var)*(var*var*var))*(var*(var*var*var)*(var*var*var)))+-1.9922944000000000e+08*((var*((var*var)*(var*var))*((var*var)*(var*var)))*(var*((var*var)*(var*var))*((var*var)*(var*var))))+-1.4057472000000000e+07*((var*(var*var)*(var*var))*(var*(var*var)*(var*var)))+5.0692096000000000e+07*(((var*var*var)*(var*var*var))*((var*var*var)*(var*var*var)))+-2.5625600000000000e+05*((var*var*var)*(var*var*var))+1.3728000000000000e+04*((var*var)*(var*var))+-5.0331648000000000e+07*((var*(var*(var*var)*(var*var))*(var*(var*var)*(var*var)))*(var*(var*(var*var)*(var*var))*(var*(var*var)*(var*var))))+1.9051315200000000e+08*((((var*var)*(var*var))*((var*var)*(var*var)))*(((var*var)*(var*var))*((var*var)*(var*var))))+1.3212057600000000e+08*(((var*(var*var)*(var*var))*(var*(var*var)*(var*var)))*((var*(var*var)*(var*var))*(var*(var*var)*(var*var))))+-2.8800000000000000e+02*(var*var)+2.4710400000000000e+06*(((var*var)*(var*var))*((var*var)*(var*var)))+8388608.0*((((var*var*var)*(var*var*var))*((var*var*var)*(var*var*var)))*(((var*var*var)*(var*var*var))*((var*var*var)*(var*var*var))))+1.0000000000000000e+00" " -1.2032409600000000e+08*((var*(var*var*var)*(var*var*var))*(var*(var*var*var)*(var*var*var)))+-1.9922944000000000e+08*((var*((var*var)*(var*var))*((var*var)*(var*var)))*(var*((var*var)*(var*var))*((var*var)*(var*var))))+-1.4057472000000000e+07*((var*(var*var)*(var*var))*(var*(var*var)*(var*var)))+5.0692096000000000e+07*(((var*var*var)*(var*var*var))*((var*var*var)*(var*var*var)))+-2.5625600000000000e+05*((var*var*var)*(var*var*var))+1.3728000000000000e+04*((var*var)*(var*var))+-5.0331648000000000e+07*((var*(var*(var*var)*(var*var))*(var*(var*var)*(var*var)))*(var*(var*(var*var)*(var*var))*(var*(var*var)*(var*var))))+1.9051315200000000e+08*((((var*var)*(var*var))*((var*var)*(var*var)))*(((var*var)*(var*var))*((var*var)*(var*var))))+1.3212057600000000e+08*(((var*(var*var)*(var*var))*(var*(var*var)*(var*var)))*((var*(var*var)*(var*var))*(var*(var*var)*(var*var))))+-2.8800000000000000e+02*(var*var)+2.4710400000000000e+06*(((var*var)*(var*var))*((var*var)*(var*var)))+8388608.0*((((var*var*var)*(var*var*var))*((var*var*var)*(var*var*var)))*(((var*var*var)*(var*var*var))*((var*var*var)*(var*var*var))))+1.0000000000000000e+00" "1.0+(1.32120576E8)*x^20+(1.90513152E8)*x^16-(288.0)*x^2+(2471040.0)*x^8+8388608*x^24-(1.9922944E8)*x^18-(1.20324096E8)*x^14+(5.0692096E7)*x^12-(1.4057472E7)*x^10-(256256.0)*x^6+(13728.0)*x^4-(5.0331648E7)*x^22";
    mkSclass "Chebyshev_25" " 2.5000000000000000e+01*var+-1.0485760000000000e+08*(var*(var*(var*(var*var)*(var*var))*(var*(var*var)*(var*var)))*(var*(var*(var*var)*(var*var))*(var*(var*var)*(var*var))))+2.8835840000000000e+08*(var*((var*(var*var)*(var*var))*(var*(var*var)*(var*var)))*((var*(var*var)*(var*var))*(var*(var*var)*(var*var))))+-1.1440000000000000e+06*(var*(var*var*var)*(var*var*var))+4.6694400000000000e+08*(var*(((var*var)*(var*var))*((var*var)*(var*var)))*(((var*var)*(var*var))*((var*var)*(var*var))))+8.0080000000000000e+04*(var*(var*var)*(var*var))+-3.1752192000000000e+08*(var*(var*(var*var*var)*(var*var*var))*(var*(var*var*var)*(var*var*var)))+1.4622720000000000e+08*(var*((var*var*var)*(var*var*var))*((var*var*var)*(var*var*var)))+-2.6000000000000000e+03*(var*var*var)+16777216.0*(var*(((var*var*var)*(var*var*var))*((var*var*var)*(var*var*var)))*(((var*var*var)*(var*var*var))*((var*var*var)*(var*var*var))))+9.1520000000000000e+06*(var*((var*var)*(var*var))*((var*var)*(var*var)))+-4.5260800000000000e+07*(var*(var*(var*var)*(var*var))*(var*(var*var)*(var*var)))+-4.5875200000000000e+08*(var*(var*((var*var)*(var*var))*((var*var)*(var*var)))*(var*((var*var)*(var*var))*((var*var)*(var*var))))" " 2.5000000000000000e+01*var+-1.0485760000000000e+08*(var*(var*(var*(var*var)*(var*var))*(var*(var*var)*(var*var)))*(var*(var*(var*var)*(var*var))*(var*(var*var)*(var*var))))+2.8835840000000000e+08*(var*((var*(var*var)*(var*var))*(var*(var*var)*(var*var)))*((var*(var*var)*(var*var))*(var*(var*var)*(var*var))))+-1.1440000000000000e+06*(var*(var*var*var)*(var*var*var))+4.6694400000000000e+08*(var*(((var*var)*(var*var))*((var*var)*(var*var)))*(((var*var)*(var*var))*((var*var)*(var*var))))+8.0080000000000000e+04*(var*(var*var)*(var*var))+-3.1752192000000000e+08*(var*(var*(var*var*var)*(var*var*var))*(var*(var*var*var)*(var*var*var)))+1.4622720000000000e+08*(var*((var*var*var)*(var*var*var))*((var*var*var)*(var*var*var)))+-2.6000000000000000e+03*(var*var*var)+16777216.0*(var*(((var*var*var)*(var*var*var))*((var*var*var)*(var*var*var)))*(((var*var*var)*(var*var*var))*((var*var*var)*(var*var*var))))+9.1520000000000000e+06*(var*((var*var)*(var*var))*((var*var)*(var*var)))+-4.5260800000000000e+07*(var*(var*(var*var)*(var*var))*(var*(var*var)*(var*var)))+-4.5875200000000000e+08*(var*(var*((var*var)*(var*var))*((var*var)*(var*var)))*(var*((var*var)*(var*var))*((var*var)*(var*var))))" "-(2600.0)*x^3-(3.1752192E8)*x^15+(1.462272E8)*x^13-(4.52608E7)*x^11+16777216*x^25+(9152000.0)*x^9-(4.58752E8)*x^19-(1.048576E8)*x^23+(2.883584E8)*x^21+(25.0)*x-(1144000.0)*x^7+(4.66944E8)*x^17+(80080.0)*x^5";
    mkSclass "Chebyshev_26" " 4.1277849600000000e+08*((var*(var*var*var)*(var*var*var))*(var*(var*var*var)*(var*var*var)))+1.1331174400000000e+09*((var*((var*var)*(var*var))*((var*var)*(var*var)))*(var*((var*var)*(var*var))*((var*var)*(var*var))))+3.2361472000000000e+07*((var*(var*var)*(var*var))*(var*(var*var)*(var*var)))+-1.4121369600000000e+08*(((var*var*var)*(var*var*var))*((var*var*var)*(var*var*var)))+4.1641600000000000e+05*((var*var*var)*(var*var*var))+-1.8928000000000000e+04*((var*var)*(var*var))+6.2704844800000000e+08*((var*(var*(var*var)*(var*var))*(var*(var*var)*(var*var)))*(var*(var*(var*var)*(var*var))*(var*(var*var)*(var*var))))+33554432.0*((var*((var*var*var)*(var*var*var))*((var*var*var)*(var*var*var)))*(var*((var*var*var)*(var*var*var))*((var*var*var)*(var*var*var))))+-8.2555699200000000e+08*((((var*var)*(var*var))*((var*var)*(var*var)))*(((var*var)*(var*var))*((var*var)*(var*var))))+-1.0496245760000000e+09*(((var*(var*var)*(var*var))*(var*(var*var)*(var*var)))*((var*(var*var)*(var*var))*(var*(var*var)*(var*var))))+3.3800000000000000e+02*(var*var)+-4.7590400000000000e+06*(((var*var)*(var*var))*((var*var)*(var*var)))+-2.1810380800000000e+08*((((var*var*var)*(var*var*var))*((var*var*var)*(var*var*var)))*(((var*var*var)*(var*var*var))*((var*var*var)*(var*var*var))))-1.0000000000000000e+00" " 4.1277849600000000e+08*((var*(var*var*var)*(var*var*var))*(var*(var*var*var)*(var*var*var)))+1.1331174400000000e+09*((var*((var*var)*(var*var))*((var*var)*(var*var)))*(var*((var*var)*(var*var))*((var*var)*(var*var))))+3.2361472000000000e+07*((var*(var*var)*(var*var))*(var*(var*var)*(var*var)))+-1.4121369600000000e+08*(((var*var*var)*(var*var*var))*((var*var*var)*(var*var*var)))+4.1641600000000000e+05*((var*var*var)*(var*var*var))+-1.8928000000000000e+04*((var*var)*(var*var))+6.2704844800000000e+08*((var*(var*(var*var)*(var*var))*(var*(var*var)*(var*var)))*(var*(var*(var*var)*(var*var))*(var*(var*var)*(var*var))))+33554432.0*((var*((var*var*var)*(var*var*var))*((var*var*var)*(var*var*var)))*(var*((var*var*var)*(var*var*var))*((var*var*var)*(var*var*var))))+-8.2555699200000000e+08*((((var*var)*(var*var))*((var*var)*(var*var)))*(((var*var)*(var*var))*((var*var)*(var*var))))+-1.0496245760000000e+09*(((var*(var*var)*(var*var))*(var*(var*var)*(var*var)))*((var*(var*var)*(var*var))*(var*(var*var)*(var*var))))+3.3800000000000000e+02*(var*var)+-4.7590400000000000e+06*(((var*var)*(var*var))*((var*var)*(var*var)))+-2.1810380800000000e+08*((((var*var*var)*(var*var*var))*((var*var*var)*(var*var*var)))*(((var*var*var)*(var*var*var))*((var*var*var)*(var*var*var))))-1.0000000000000000e+00" "-1.0-(1.049624576E9)*x^20-(8.25556992E8)*x^16+(338.0)*x^2-(4759040.0)*x^8-(2.18103808E8)*x^24+(1.13311744E9)*x^18+(4.12778496E8)*x^14-(1.41213696E8)*x^12+(3.2361472E7)*x^10+(416416.0)*x^6+33554432*x^26-(18928.0)*x^4+(6.27048448E8)*x^22";
    mkSclass "Chebyshev_27" " -2.7000000000000000e+01*var+1.3589544960000000e+09*(var*(var*(var*(var*var)*(var*var))*(var*(var*var)*(var*var)))*(var*(var*(var*var)*(var*var))*(var*(var*var)*(var*var))))+67108864.0*(var*(var*((var*var*var)*(var*var*var))*((var*var*var)*(var*var*var)))*(var*((var*var*var)*(var*var*var))*((var*var*var)*(var*var*var))))+-2.3876075520000000e+09*(var*((var*(var*var)*(var*var))*(var*(var*var)*(var*var)))*((var*(var*var)*(var*var))*(var*(var*var)*(var*var))))+1.9768320000000000e+06*(var*(var*var*var)*(var*var*var))+-2.1180579840000000e+09*(var*(((var*var)*(var*var))*((var*var)*(var*var)))*(((var*var)*(var*var))*((var*var)*(var*var))))+-1.1793600000000000e+05*(var*(var*var)*(var*var))+1.1430789120000000e+09*(var*(var*(var*var*var)*(var*var*var))*(var*(var*var*var)*(var*var*var)))+-4.2865459200000000e+08*(var*((var*var*var)*(var*var*var))*((var*var*var)*(var*var*var)))+3.2760000000000000e+03*(var*var*var)+-4.5298483200000000e+08*(var*(((var*var*var)*(var*var*var))*((var*var*var)*(var*var*var)))*(((var*var*var)*(var*var*var))*((var*var*var)*(var*var*var))))+-1.8670080000000000e+07*(var*((var*var)*(var*var))*((var*var)*(var*var)))+1.0998374400000000e+08*(var*(var*(var*var)*(var*var))*(var*(var*var)*(var*var)))+2.7249868800000000e+09*(var*(var*((var*var)*(var*var))*((var*var)*(var*var)))*(var*((var*var)*(var*var))*((var*var)*(var*var))))" " -2.7000000000000000e+01*var+1.3589544960000000e+09*(var*(var*(var*(var*var)*(var*var))*(var*(var*var)*(var*var)))*(var*(var*(var*var)*(var*var))*(var*(var*var)*(var*var))))+67108864.0*(var*(var*((var*var*var)*(var*var*var))*((var*var*var)*(var*var*var)))*(var*((var*var*var)*(var*var*var))*((var*var*var)*(var*var*var))))+-2.3876075520000000e+09*(var*((var*(var*var)*(var*var))*(var*(var*var)*(var*var)))*((var*(var*var)*(var*var))*(var*(var*var)*(var*var))))+1.9768320000000000e+06*(var*(var*var*var)*(var*var*var))+-2.1180579840000000e+09*(var*(((var*var)*(var*var))*((var*var)*(var*var)))*(((var*var)*(var*var))*((var*var)*(var*var))))+-1.1793600000000000e+05*(var*(var*var)*(var*var))+1.1430789120000000e+09*(var*(var*(var*var*var)*(var*var*var))*(var*(var*var*var)*(var*var*var)))+-4.2865459200000000e+08*(var*((var*var*var)*(var*var*var))*((var*var*var)*(var*var*var)))+3.2760000000000000e+03*(var*var*var)+-4.5298483200000000e+08*(var*(((var*var*var)*(var*var*var))*((var*var*var)*(var*var*var)))*(((var*var*var)*(var*var*var))*((var*var*var)*(var*var*var))))+-1.8670080000000000e+07*(var*((var*var)*(var*var))*((var*var)*(var*var)))+1.0998374400000000e+08*(var*(var*(var*var)*(var*var))*(var*(var*var)*(var*var)))+2.7249868800000000e+09*(var*(var*((var*var)*(var*var))*((var*var)*(var*var)))*(var*((var*var)*(var*var))*((var*var)*(var*var))))" "(3276.0)*x^3+(1.143078912E9)*x^15-(4.28654592E8)*x^13+(1.09983744E8)*x^11-(4.52984832E8)*x^25-(1.867008E7)*x^9+(2.72498688E9)*x^19+67108864*x^27+(1.358954496E9)*x^23-(2.387607552E9)*x^21-(27.0)*x+(1976832.0)*x^7-(2.118057984E9)*x^17-(117936.0)*x^5";
    mkSclass "Chebyshev_28" " -1.2700876800000000e+09*((var*(var*var*var)*(var*var*var))*(var*(var*var*var)*(var*var*var)))+-5.3692334080000000e+09*((var*((var*var)*(var*var))*((var*var)*(var*var)))*(var*((var*var)*(var*var))*((var*var)*(var*var))))+-6.9701632000000000e+07*((var*(var*var)*(var*var))*(var*(var*var)*(var*var)))+3.6118118400000000e+08*(((var*var*var)*(var*var*var))*((var*var*var)*(var*var*var)))+-6.5228800000000000e+05*((var*var*var)*(var*var*var))+2.5480000000000000e+04*((var*var)*(var*var))+-5.4022635520000000e+09*((var*(var*(var*var)*(var*var))*(var*(var*var)*(var*var)))*(var*(var*(var*var)*(var*var))*(var*(var*var)*(var*var))))+-9.3952409600000000e+08*((var*((var*var*var)*(var*var*var))*((var*var*var)*(var*var*var)))*(var*((var*var*var)*(var*var*var))*((var*var*var)*(var*var*var))))+3.1117148160000000e+09*((((var*var)*(var*var))*((var*var)*(var*var)))*(((var*var)*(var*var))*((var*var)*(var*var))))+6.4995983360000000e+09*(((var*(var*var)*(var*var))*(var*(var*var)*(var*var)))*((var*(var*var)*(var*var))*(var*(var*var)*(var*var))))+-3.9200000000000000e+02*(var*var)+8.7127040000000000e+06*(((var*var)*(var*var))*((var*var)*(var*var)))+2.9360128000000000e+09*((((var*var*var)*(var*var*var))*((var*var*var)*(var*var*var)))*(((var*var*var)*(var*var*var))*((var*var*var)*(var*var*var))))+134217728.0*(((var*(var*var*var)*(var*var*var))*(var*(var*var*var)*(var*var*var)))*((var*(var*var*var)*(var*var*var))*(var*(var*var*var)*(var*var*var))))+1.0000000000000000e+00" " -1.2700876800000000e+09*((var*(var*var*var)*(var*var*var))*(var*(var*var*var)*(var*var*var)))+-5.3692334080000000e+09*((var*((var*var)*(var*var))*((var*var)*(var*var)))*(var*((var*var)*(var*var))*((var*var)*(var*var))))+-6.9701632000000000e+07*((var*(var*var)*(var*var))*(var*(var*var)*(var*var)))+3.6118118400000000e+08*(((var*var*var)*(var*var*var))*((var*var*var)*(var*var*var)))+-6.5228800000000000e+05*((var*var*var)*(var*var*var))+2.5480000000000000e+04*((var*var)*(var*var))+-5.4022635520000000e+09*((var*(var*(var*var)*(var*var))*(var*(var*var)*(var*var)))*(var*(var*(var*var)*(var*var))*(var*(var*var)*(var*var))))+-9.3952409600000000e+08*((var*((var*var*var)*(var*var*var))*((var*var*var)*(var*var*var)))*(var*((var*var*var)*(var*var*var))*((var*var*var)*(var*var*var))))+3.1117148160000000e+09*((((var*var)*(var*var))*((var*var)*(var*var)))*(((var*var)*(var*var))*((var*var)*(var*var))))+6.4995983360000000e+09*(((var*(var*var)*(var*var))*(var*(var*var)*(var*var)))*((var*(var*var)*(var*var))*(var*(var*var)*(var*var))))+-3.9200000000000000e+02*(var*var)+8.7127040000000000e+06*(((var*var)*(var*var))*((var*var)*(var*var)))+2.9360128000000000e+09*((((var*var*var)*(var*var*var))*((var*var*var)*(var*var*var)))*(((var*var*var)*(var*var*var))*((var*var*var)*(var*var*var))))+134217728.0*(((var*(var*var*var)*(var*var*var))*(var*(var*var*var)*(var*var*var)))*((var*(var*var*var)*(var*var*var))*(var*(var*var*var)*(var*var*var))))+1.0000000000000000e+00" "1.0+(6.499598336E9)*x^20+(3.111714816E9)*x^16-(392.0)*x^2+(8712704.0)*x^8+134217728*x^28+(2.9360128E9)*x^24-(5.369233408E9)*x^18-(1.27008768E9)*x^14+(3.61181184E8)*x^12-(6.9701632E7)*x^10-(652288.0)*x^6-(9.39524096E8)*x^26+(25480.0)*x^4-(5.402263552E9)*x^22";
    mkSclass "Chebyshev_29" " 2.9000000000000000e+01*var+-1.2163481600000000e+10*(var*(var*(var*(var*var)*(var*var))*(var*(var*var)*(var*var)))*(var*(var*(var*var)*(var*var))*(var*(var*var)*(var*var))))+-1.9461570560000000e+09*(var*(var*((var*var*var)*(var*var*var))*((var*var*var)*(var*var*var)))*(var*((var*var*var)*(var*var*var))*((var*var*var)*(var*var*var))))+1.5386804224000000e+10*(var*((var*(var*var)*(var*var))*(var*(var*var)*(var*var)))*((var*(var*var)*(var*var))*(var*(var*var)*(var*var))))+-3.2814080000000000e+06*(var*(var*var*var)*(var*var*var))+8.3414876160000000e+09*(var*(((var*var)*(var*var))*((var*var)*(var*var)))*(((var*var)*(var*var))*((var*var)*(var*var))))+1.6889600000000000e+05*(var*(var*var)*(var*var))+-3.6832542720000000e+09*(var*(var*(var*var*var)*(var*var*var))*(var*(var*var*var)*(var*var*var)))+1.1510169600000000e+09*(var*((var*var*var)*(var*var*var))*((var*var*var)*(var*var*var)))+-4.0600000000000000e+03*(var*var*var)+6.3250104320000000e+09*(var*(((var*var*var)*(var*var*var))*((var*var*var)*(var*var*var)))*(((var*var*var)*(var*var*var))*((var*var*var)*(var*var*var))))+3.6095488000000000e+07*(var*((var*var)*(var*var))*((var*var)*(var*var)))+268435456.0*(var*((var*(var*var*var)*(var*var*var))*(var*(var*var*var)*(var*var*var)))*((var*(var*var*var)*(var*var*var))*(var*(var*var*var)*(var*var*var))))+-2.4938700800000000e+08*(var*(var*(var*var)*(var*var))*(var*(var*var)*(var*var)))+-1.3463453696000000e+10*(var*(var*((var*var)*(var*var))*((var*var)*(var*var)))*(var*((var*var)*(var*var))*((var*var)*(var*var))))" " 2.9000000000000000e+01*var+-1.2163481600000000e+10*(var*(var*(var*(var*var)*(var*var))*(var*(var*var)*(var*var)))*(var*(var*(var*var)*(var*var))*(var*(var*var)*(var*var))))+-1.9461570560000000e+09*(var*(var*((var*var*var)*(var*var*var))*((var*var*var)*(var*var*var)))*(var*((var*var*var)*(var*var*var))*((var*var*var)*(var*var*var))))+1.5386804224000000e+10*(var*((var*(var*var)*(var*var))*(var*(var*var)*(var*var)))*((var*(var*var)*(var*var))*(var*(var*var)*(var*var))))+-3.2814080000000000e+06*(var*(var*var*var)*(var*var*var))+8.3414876160000000e+09*(var*(((var*var)*(var*var))*((var*var)*(var*var)))*(((var*var)*(var*var))*((var*var)*(var*var))))+1.6889600000000000e+05*(var*(var*var)*(var*var))+-3.6832542720000000e+09*(var*(var*(var*var*var)*(var*var*var))*(var*(var*var*var)*(var*var*var)))+1.1510169600000000e+09*(var*((var*var*var)*(var*var*var))*((var*var*var)*(var*var*var)))+-4.0600000000000000e+03*(var*var*var)+6.3250104320000000e+09*(var*(((var*var*var)*(var*var*var))*((var*var*var)*(var*var*var)))*(((var*var*var)*(var*var*var))*((var*var*var)*(var*var*var))))+3.6095488000000000e+07*(var*((var*var)*(var*var))*((var*var)*(var*var)))+268435456.0*(var*((var*(var*var*var)*(var*var*var))*(var*(var*var*var)*(var*var*var)))*((var*(var*var*var)*(var*var*var))*(var*(var*var*var)*(var*var*var))))+-2.4938700800000000e+08*(var*(var*(var*var)*(var*var))*(var*(var*var)*(var*var)))+-1.3463453696000000e+10*(var*(var*((var*var)*(var*var))*((var*var)*(var*var)))*(var*((var*var)*(var*var))*((var*var)*(var*var))))" "-(4060.0)*x^3-(3.683254272E9)*x^15+(1.15101696E9)*x^13+268435456*x^29-(2.49387008E8)*x^11+(6.325010432E9)*x^25+(3.6095488E7)*x^9-(1.3463453696E10)*x^19-(1.946157056E9)*x^27-(1.21634816E10)*x^23+(1.5386804224E10)*x^21+(29.0)*x-(3281408.0)*x^7+(8.341487616E9)*x^17+(168896.0)*x^5";
    mkSclass "Chebyshev_0_grad" "0.0" "0.0" "0";
    mkSclass "Chebyshev_1_grad" "1.0" "1.0" "1";
    mkSclass "Chebyshev_2_grad" "4.0*var" "4.0*var" "4*x";
    mkSclass "Chebyshev_3_grad" " 12.0*(var*var)-3.0000000000000000e+00" " 12.0*(var*var)-3.0000000000000000e+00" "-3.0+12*x^2";
    mkSclass "Chebyshev_4_grad" " -1.6000000000000000e+01*var+32.0*(var*var*var)" " -1.6000000000000000e+01*var+32.0*(var*var*var)" "32*x^3-(16.0)*x";
    mkSclass "Chebyshev_5_grad" " 80.0*((var*var)*(var*var))+-6.0000000000000000e+01*(var*var)+5.0000000000000000e+00" " 80.0*((var*var)*(var*var))+-6.0000000000000000e+01*(var*var)+5.0000000000000000e+00" "5.0-(60.0)*x^2+80*x^4";
    mkSclass "Chebyshev_6_grad" " 3.6000000000000000e+01*var+192.0*(var*(var*var)*(var*var))+-1.9200000000000000e+02*(var*var*var)" " 3.6000000000000000e+01*var+192.0*(var*(var*var)*(var*var))+-1.9200000000000000e+02*(var*var*var)" "-(192.0)*x^3+(36.0)*x+192*x^5";
    mkSclass "Chebyshev_7_grad" " 448.0*((var*var*var)*(var*var*var))+-5.6000000000000000e+02*((var*var)*(var*var))+1.6800000000000000e+02*(var*var)-7.0000000000000000e+00" " 448.0*((var*var*var)*(var*var*var))+-5.6000000000000000e+02*((var*var)*(var*var))+1.6800000000000000e+02*(var*var)-7.0000000000000000e+00" "-7.0+(168.0)*x^2+448*x^6-(560.0)*x^4";
    mkSclass "Chebyshev_8_grad" " -6.4000000000000000e+01*var+1024.0*(var*(var*var*var)*(var*var*var))+-1.5360000000000000e+03*(var*(var*var)*(var*var))+6.4000000000000000e+02*(var*var*var)" " -6.4000000000000000e+01*var+1024.0*(var*(var*var*var)*(var*var*var))+-1.5360000000000000e+03*(var*(var*var)*(var*var))+6.4000000000000000e+02*(var*var*var)" "(640.0)*x^3-(64.0)*x+1024*x^7-(1536.0)*x^5";
    mkSclass "Chebyshev_9_grad" " -4.0320000000000000e+03*((var*var*var)*(var*var*var))+2.1600000000000000e+03*((var*var)*(var*var))+-3.6000000000000000e+02*(var*var)+2304.0*(((var*var)*(var*var))*((var*var)*(var*var)))+9.0000000000000000e+00" " -4.0320000000000000e+03*((var*var*var)*(var*var*var))+2.1600000000000000e+03*((var*var)*(var*var))+-3.6000000000000000e+02*(var*var)+2304.0*(((var*var)*(var*var))*((var*var)*(var*var)))+9.0000000000000000e+00" "9.0-(360.0)*x^2+2304*x^8-(4032.0)*x^6+(2160.0)*x^4";
    mkSclass "Chebyshev_10_grad" " 1.0000000000000000e+02*var+-1.0240000000000000e+04*(var*(var*var*var)*(var*var*var))+6.7200000000000000e+03*(var*(var*var)*(var*var))+-1.6000000000000000e+03*(var*var*var)+5120.0*(var*((var*var)*(var*var))*((var*var)*(var*var)))" " 1.0000000000000000e+02*var+-1.0240000000000000e+04*(var*(var*var*var)*(var*var*var))+6.7200000000000000e+03*(var*(var*var)*(var*var))+-1.6000000000000000e+03*(var*var*var)+5120.0*(var*((var*var)*(var*var))*((var*var)*(var*var)))" "-(1600.0)*x^3+5120*x^9+(100.0)*x-(10240.0)*x^7+(6720.0)*x^5";
    mkSclass "Chebyshev_11_grad" " 11264.0*((var*(var*var)*(var*var))*(var*(var*var)*(var*var)))+1.9712000000000000e+04*((var*var*var)*(var*var*var))+-6.1600000000000000e+03*((var*var)*(var*var))+6.6000000000000000e+02*(var*var)+-2.5344000000000000e+04*(((var*var)*(var*var))*((var*var)*(var*var)))-1.1000000000000000e+01" " 11264.0*((var*(var*var)*(var*var))*(var*(var*var)*(var*var)))+1.9712000000000000e+04*((var*var*var)*(var*var*var))+-6.1600000000000000e+03*((var*var)*(var*var))+6.6000000000000000e+02*(var*var)+-2.5344000000000000e+04*(((var*var)*(var*var))*((var*var)*(var*var)))-1.1000000000000000e+01" "-11.0+(660.0)*x^2-(25344.0)*x^8+11264*x^10+(19712.0)*x^6-(6160.0)*x^4";
    mkSclass "Chebyshev_12_grad" " -1.4400000000000000e+02*var+5.5296000000000000e+04*(var*(var*var*var)*(var*var*var))+-2.1504000000000000e+04*(var*(var*var)*(var*var))+3.3600000000000000e+03*(var*var*var)+-6.1440000000000000e+04*(var*((var*var)*(var*var))*((var*var)*(var*var)))+24576.0*(var*(var*(var*var)*(var*var))*(var*(var*var)*(var*var)))" " -1.4400000000000000e+02*var+5.5296000000000000e+04*(var*(var*var*var)*(var*var*var))+-2.1504000000000000e+04*(var*(var*var)*(var*var))+3.3600000000000000e+03*(var*var*var)+-6.1440000000000000e+04*(var*((var*var)*(var*var))*((var*var)*(var*var)))+24576.0*(var*(var*(var*var)*(var*var))*(var*(var*var)*(var*var)))" "(3360.0)*x^3+24576*x^11-(61440.0)*x^9-(144.0)*x+(55296.0)*x^7-(21504.0)*x^5";
    mkSclass "Chebyshev_13_grad" " -1.4643200000000000e+05*((var*(var*var)*(var*var))*(var*(var*var)*(var*var)))+53248.0*(((var*var*var)*(var*var*var))*((var*var*var)*(var*var*var)))+-6.9888000000000000e+04*((var*var*var)*(var*var*var))+1.4560000000000000e+04*((var*var)*(var*var))+-1.0920000000000000e+03*(var*var)+1.4976000000000000e+05*(((var*var)*(var*var))*((var*var)*(var*var)))+1.3000000000000000e+01" " -1.4643200000000000e+05*((var*(var*var)*(var*var))*(var*(var*var)*(var*var)))+53248.0*(((var*var*var)*(var*var*var))*((var*var*var)*(var*var*var)))+-6.9888000000000000e+04*((var*var*var)*(var*var*var))+1.4560000000000000e+04*((var*var)*(var*var))+-1.0920000000000000e+03*(var*var)+1.4976000000000000e+05*(((var*var)*(var*var))*((var*var)*(var*var)))+1.3000000000000000e+01" "13.0-(1092.0)*x^2+(149760.0)*x^8+53248*x^12-(146432.0)*x^10-(69888.0)*x^6+(14560.0)*x^4";
    mkSclass "Chebyshev_14_grad" " 1.9600000000000000e+02*var+-2.1504000000000000e+05*(var*(var*var*var)*(var*var*var))+5.6448000000000000e+04*(var*(var*var)*(var*var))+114688.0*(var*((var*var*var)*(var*var*var))*((var*var*var)*(var*var*var)))+-6.2720000000000000e+03*(var*var*var)+3.9424000000000000e+05*(var*((var*var)*(var*var))*((var*var)*(var*var)))+-3.4406400000000000e+05*(var*(var*(var*var)*(var*var))*(var*(var*var)*(var*var)))" " 1.9600000000000000e+02*var+-2.1504000000000000e+05*(var*(var*var*var)*(var*var*var))+5.6448000000000000e+04*(var*(var*var)*(var*var))+114688.0*(var*((var*var*var)*(var*var*var))*((var*var*var)*(var*var*var)))+-6.2720000000000000e+03*(var*var*var)+3.9424000000000000e+05*(var*((var*var)*(var*var))*((var*var)*(var*var)))+-3.4406400000000000e+05*(var*(var*(var*var)*(var*var))*(var*(var*var)*(var*var)))" "-(6272.0)*x^3+114688*x^13-(344064.0)*x^11+(394240.0)*x^9+(196.0)*x-(215040.0)*x^7+(56448.0)*x^5";
    mkSclass "Chebyshev_15_grad" " 245760.0*((var*(var*var*var)*(var*var*var))*(var*(var*var*var)*(var*var*var)))+1.0137600000000000e+06*((var*(var*var)*(var*var))*(var*(var*var)*(var*var)))+-7.9872000000000000e+05*(((var*var*var)*(var*var*var))*((var*var*var)*(var*var*var)))+2.0160000000000000e+05*((var*var*var)*(var*var*var))+-3.0240000000000000e+04*((var*var)*(var*var))+1.6800000000000000e+03*(var*var)+-6.3360000000000000e+05*(((var*var)*(var*var))*((var*var)*(var*var)))-1.5000000000000000e+01" " 245760.0*((var*(var*var*var)*(var*var*var))*(var*(var*var*var)*(var*var*var)))+1.0137600000000000e+06*((var*(var*var)*(var*var))*(var*(var*var)*(var*var)))+-7.9872000000000000e+05*(((var*var*var)*(var*var*var))*((var*var*var)*(var*var*var)))+2.0160000000000000e+05*((var*var*var)*(var*var*var))+-3.0240000000000000e+04*((var*var)*(var*var))+1.6800000000000000e+03*(var*var)+-6.3360000000000000e+05*(((var*var)*(var*var))*((var*var)*(var*var)))-1.5000000000000000e+01" "-15.0+(1680.0)*x^2-(633600.0)*x^8+245760*x^14-(798720.0)*x^12+(1013760.0)*x^10+(201600.0)*x^6-(30240.0)*x^4";
    mkSclass "Chebyshev_16_grad" " -2.5600000000000000e+02*var+6.7584000000000000e+05*(var*(var*var*var)*(var*var*var))+-1.2902400000000000e+05*(var*(var*var)*(var*var))+524288.0*(var*(var*(var*var*var)*(var*var*var))*(var*(var*var*var)*(var*var*var)))+-1.8350080000000000e+06*(var*((var*var*var)*(var*var*var))*((var*var*var)*(var*var*var)))+1.0752000000000000e+04*(var*var*var)+-1.8022400000000000e+06*(var*((var*var)*(var*var))*((var*var)*(var*var)))+2.5559040000000000e+06*(var*(var*(var*var)*(var*var))*(var*(var*var)*(var*var)))" " -2.5600000000000000e+02*var+6.7584000000000000e+05*(var*(var*var*var)*(var*var*var))+-1.2902400000000000e+05*(var*(var*var)*(var*var))+524288.0*(var*(var*(var*var*var)*(var*var*var))*(var*(var*var*var)*(var*var*var)))+-1.8350080000000000e+06*(var*((var*var*var)*(var*var*var))*((var*var*var)*(var*var*var)))+1.0752000000000000e+04*(var*var*var)+-1.8022400000000000e+06*(var*((var*var)*(var*var))*((var*var)*(var*var)))+2.5559040000000000e+06*(var*(var*(var*var)*(var*var))*(var*(var*var)*(var*var)))" "(10752.0)*x^3+524288*x^15-(1835008.0)*x^13+(2555904.0)*x^11-(1802240.0)*x^9-(256.0)*x+(675840.0)*x^7-(129024.0)*x^5";
    mkSclass "Chebyshev_17_grad" " -4.1779200000000000e+06*((var*(var*var*var)*(var*var*var))*(var*(var*var*var)*(var*var*var)))+-4.9786880000000000e+06*((var*(var*var)*(var*var))*(var*(var*var)*(var*var)))+6.3365120000000000e+06*(((var*var*var)*(var*var*var))*((var*var*var)*(var*var*var)))+-5.0265600000000000e+05*((var*var*var)*(var*var*var))+5.7120000000000000e+04*((var*var)*(var*var))+1114112.0*((((var*var)*(var*var))*((var*var)*(var*var)))*(((var*var)*(var*var))*((var*var)*(var*var))))+-2.4480000000000000e+03*(var*var)+2.1542400000000000e+06*(((var*var)*(var*var))*((var*var)*(var*var)))+1.7000000000000000e+01" " -4.1779200000000000e+06*((var*(var*var*var)*(var*var*var))*(var*(var*var*var)*(var*var*var)))+-4.9786880000000000e+06*((var*(var*var)*(var*var))*(var*(var*var)*(var*var)))+6.3365120000000000e+06*(((var*var*var)*(var*var*var))*((var*var*var)*(var*var*var)))+-5.0265600000000000e+05*((var*var*var)*(var*var*var))+5.7120000000000000e+04*((var*var)*(var*var))+1114112.0*((((var*var)*(var*var))*((var*var)*(var*var)))*(((var*var)*(var*var))*((var*var)*(var*var))))+-2.4480000000000000e+03*(var*var)+2.1542400000000000e+06*(((var*var)*(var*var))*((var*var)*(var*var)))+1.7000000000000000e+01" "17.0+1114112*x^16-(2448.0)*x^2+(2154240.0)*x^8-(4177920.0)*x^14+(6336512.0)*x^12-(4978688.0)*x^10-(502656.0)*x^6+(57120.0)*x^4";
    mkSclass "Chebyshev_18_grad" " 3.2400000000000000e+02*var+-1.8247680000000000e+06*(var*(var*var*var)*(var*var*var))+2359296.0*(var*(((var*var)*(var*var))*((var*var)*(var*var)))*(((var*var)*(var*var))*((var*var)*(var*var))))+2.6611200000000000e+05*(var*(var*var)*(var*var))+-9.4371840000000000e+06*(var*(var*(var*var*var)*(var*var*var))*(var*(var*var*var)*(var*var*var)))+1.5482880000000000e+07*(var*((var*var*var)*(var*var*var))*((var*var*var)*(var*var*var)))+-1.7280000000000000e+04*(var*var*var)+6.5894400000000000e+06*(var*((var*var)*(var*var))*((var*var)*(var*var)))+-1.3418496000000000e+07*(var*(var*(var*var)*(var*var))*(var*(var*var)*(var*var)))" " 3.2400000000000000e+02*var+-1.8247680000000000e+06*(var*(var*var*var)*(var*var*var))+2359296.0*(var*(((var*var)*(var*var))*((var*var)*(var*var)))*(((var*var)*(var*var))*((var*var)*(var*var))))+2.6611200000000000e+05*(var*(var*var)*(var*var))+-9.4371840000000000e+06*(var*(var*(var*var*var)*(var*var*var))*(var*(var*var*var)*(var*var*var)))+1.5482880000000000e+07*(var*((var*var*var)*(var*var*var))*((var*var*var)*(var*var*var)))+-1.7280000000000000e+04*(var*var*var)+6.5894400000000000e+06*(var*((var*var)*(var*var))*((var*var)*(var*var)))+-1.3418496000000000e+07*(var*(var*(var*var)*(var*var))*(var*(var*var)*(var*var)))" "-(17280.0)*x^3-(9437184.0)*x^15+(1.548288E7)*x^13-(1.3418496E7)*x^11+(6589440.0)*x^9+(324.0)*x-(1824768.0)*x^7+2359296*x^17+(266112.0)*x^5";
    mkSclass "Chebyshev_19_grad" " 3.7355520000000000e+07*((var*(var*var*var)*(var*var*var))*(var*(var*var*var)*(var*var*var)))+4980736.0*((var*((var*var)*(var*var))*((var*var)*(var*var)))*(var*((var*var)*(var*var))*((var*var)*(var*var))))+1.9475456000000000e+07*((var*(var*var)*(var*var))*(var*(var*var)*(var*var)))+-3.5409920000000000e+07*(((var*var*var)*(var*var*var))*((var*var*var)*(var*var*var)))+1.1235840000000000e+06*((var*var*var)*(var*var*var))+-1.0032000000000000e+05*((var*var)*(var*var))+-2.1168128000000000e+07*((((var*var)*(var*var))*((var*var)*(var*var)))*(((var*var)*(var*var))*((var*var)*(var*var))))+3.4200000000000000e+03*(var*var)+-6.2599680000000000e+06*(((var*var)*(var*var))*((var*var)*(var*var)))-1.9000000000000000e+01" " 3.7355520000000000e+07*((var*(var*var*var)*(var*var*var))*(var*(var*var*var)*(var*var*var)))+4980736.0*((var*((var*var)*(var*var))*((var*var)*(var*var)))*(var*((var*var)*(var*var))*((var*var)*(var*var))))+1.9475456000000000e+07*((var*(var*var)*(var*var))*(var*(var*var)*(var*var)))+-3.5409920000000000e+07*(((var*var*var)*(var*var*var))*((var*var*var)*(var*var*var)))+1.1235840000000000e+06*((var*var*var)*(var*var*var))+-1.0032000000000000e+05*((var*var)*(var*var))+-2.1168128000000000e+07*((((var*var)*(var*var))*((var*var)*(var*var)))*(((var*var)*(var*var))*((var*var)*(var*var))))+3.4200000000000000e+03*(var*var)+-6.2599680000000000e+06*(((var*var)*(var*var))*((var*var)*(var*var)))-1.9000000000000000e+01" "-19.0-(2.1168128E7)*x^16+(3420.0)*x^2-(6259968.0)*x^8+4980736*x^18+(3.735552E7)*x^14-(3.540992E7)*x^12+(1.9475456E7)*x^10+(1123584.0)*x^6-(100320.0)*x^4";
    mkSclass "Chebyshev_20_grad" " -4.0000000000000000e+02*var+4.3929600000000000e+06*(var*(var*var*var)*(var*var*var))+-4.7185920000000000e+07*(var*(((var*var)*(var*var))*((var*var)*(var*var)))*(((var*var)*(var*var))*((var*var)*(var*var))))+-5.0688000000000000e+05*(var*(var*var)*(var*var))+8.9128960000000000e+07*(var*(var*(var*var*var)*(var*var*var))*(var*(var*var*var)*(var*var*var)))+-9.1750400000000000e+07*(var*((var*var*var)*(var*var*var))*((var*var*var)*(var*var*var)))+2.6400000000000000e+04*(var*var*var)+-2.0500480000000000e+07*(var*((var*var)*(var*var))*((var*var)*(var*var)))+5.5910400000000000e+07*(var*(var*(var*var)*(var*var))*(var*(var*var)*(var*var)))+10485760.0*(var*(var*((var*var)*(var*var))*((var*var)*(var*var)))*(var*((var*var)*(var*var))*((var*var)*(var*var))))" " -4.0000000000000000e+02*var+4.3929600000000000e+06*(var*(var*var*var)*(var*var*var))+-4.7185920000000000e+07*(var*(((var*var)*(var*var))*((var*var)*(var*var)))*(((var*var)*(var*var))*((var*var)*(var*var))))+-5.0688000000000000e+05*(var*(var*var)*(var*var))+8.9128960000000000e+07*(var*(var*(var*var*var)*(var*var*var))*(var*(var*var*var)*(var*var*var)))+-9.1750400000000000e+07*(var*((var*var*var)*(var*var*var))*((var*var*var)*(var*var*var)))+2.6400000000000000e+04*(var*var*var)+-2.0500480000000000e+07*(var*((var*var)*(var*var))*((var*var)*(var*var)))+5.5910400000000000e+07*(var*(var*(var*var)*(var*var))*(var*(var*var)*(var*var)))+10485760.0*(var*(var*((var*var)*(var*var))*((var*var)*(var*var)))*(var*((var*var)*(var*var))*((var*var)*(var*var))))" "(26400.0)*x^3+(8.912896E7)*x^15-(9.17504E7)*x^13+(5.59104E7)*x^11-(2.050048E7)*x^9+10485760*x^19-(400.0)*x+(4392960.0)*x^7-(4.718592E7)*x^17-(506880.0)*x^5";
    mkSclass "Chebyshev_21_grad" " -2.3396352000000000e+08*((var*(var*var*var)*(var*var*var))*(var*(var*var*var)*(var*var*var)))+-1.0459545600000000e+08*((var*((var*var)*(var*var))*((var*var)*(var*var)))*(var*((var*var)*(var*var))*((var*var)*(var*var))))+-6.4576512000000000e+07*((var*(var*var)*(var*var))*(var*(var*var)*(var*var)))+1.5654912000000000e+08*(((var*var*var)*(var*var*var))*((var*var*var)*(var*var*var)))+-2.3063040000000000e+06*((var*var*var)*(var*var*var))+1.6632000000000000e+05*((var*var)*(var*var))+2.1056716800000000e+08*((((var*var)*(var*var))*((var*var)*(var*var)))*(((var*var)*(var*var))*((var*var)*(var*var))))+22020096.0*(((var*(var*var)*(var*var))*(var*(var*var)*(var*var)))*((var*(var*var)*(var*var))*(var*(var*var)*(var*var))))+-4.6200000000000000e+03*(var*var)+1.6144128000000000e+07*(((var*var)*(var*var))*((var*var)*(var*var)))+2.1000000000000000e+01" " -2.3396352000000000e+08*((var*(var*var*var)*(var*var*var))*(var*(var*var*var)*(var*var*var)))+-1.0459545600000000e+08*((var*((var*var)*(var*var))*((var*var)*(var*var)))*(var*((var*var)*(var*var))*((var*var)*(var*var))))+-6.4576512000000000e+07*((var*(var*var)*(var*var))*(var*(var*var)*(var*var)))+1.5654912000000000e+08*(((var*var*var)*(var*var*var))*((var*var*var)*(var*var*var)))+-2.3063040000000000e+06*((var*var*var)*(var*var*var))+1.6632000000000000e+05*((var*var)*(var*var))+2.1056716800000000e+08*((((var*var)*(var*var))*((var*var)*(var*var)))*(((var*var)*(var*var))*((var*var)*(var*var))))+22020096.0*(((var*(var*var)*(var*var))*(var*(var*var)*(var*var)))*((var*(var*var)*(var*var))*(var*(var*var)*(var*var))))+-4.6200000000000000e+03*(var*var)+1.6144128000000000e+07*(((var*var)*(var*var))*((var*var)*(var*var)))+2.1000000000000000e+01" "21.0+22020096*x^20+(2.10567168E8)*x^16-(4620.0)*x^2+(1.6144128E7)*x^8-(1.04595456E8)*x^18-(2.3396352E8)*x^14+(1.5654912E8)*x^12-(6.4576512E7)*x^10-(2306304.0)*x^6+(166320.0)*x^4";
    mkSclass "Chebyshev_22_grad" " 4.8400000000000000e+02*var+46137344.0*(var*((var*(var*var)*(var*var))*(var*(var*var)*(var*var)))*((var*(var*var)*(var*var))*(var*(var*var)*(var*var))))+-9.6645120000000000e+06*(var*(var*var*var)*(var*var*var))+4.9309286400000000e+08*(var*(((var*var)*(var*var))*((var*var)*(var*var)))*(((var*var)*(var*var))*((var*var)*(var*var))))+9.0604800000000000e+05*(var*(var*var)*(var*var))+-5.8825113600000000e+08*(var*(var*(var*var*var)*(var*var*var))*(var*(var*var*var)*(var*var*var)))+4.2893312000000000e+08*(var*((var*var*var)*(var*var*var))*((var*var*var)*(var*var*var)))+-3.8720000000000000e+04*(var*var*var)+5.6376320000000000e+07*(var*((var*var)*(var*var))*((var*var)*(var*var)))+-1.9680460800000000e+08*(var*(var*(var*var)*(var*var))*(var*(var*var)*(var*var)))+-2.3068672000000000e+08*(var*(var*((var*var)*(var*var))*((var*var)*(var*var)))*(var*((var*var)*(var*var))*((var*var)*(var*var))))" " 4.8400000000000000e+02*var+46137344.0*(var*((var*(var*var)*(var*var))*(var*(var*var)*(var*var)))*((var*(var*var)*(var*var))*(var*(var*var)*(var*var))))+-9.6645120000000000e+06*(var*(var*var*var)*(var*var*var))+4.9309286400000000e+08*(var*(((var*var)*(var*var))*((var*var)*(var*var)))*(((var*var)*(var*var))*((var*var)*(var*var))))+9.0604800000000000e+05*(var*(var*var)*(var*var))+-5.8825113600000000e+08*(var*(var*(var*var*var)*(var*var*var))*(var*(var*var*var)*(var*var*var)))+4.2893312000000000e+08*(var*((var*var*var)*(var*var*var))*((var*var*var)*(var*var*var)))+-3.8720000000000000e+04*(var*var*var)+5.6376320000000000e+07*(var*((var*var)*(var*var))*((var*var)*(var*var)))+-1.9680460800000000e+08*(var*(var*(var*var)*(var*var))*(var*(var*var)*(var*var)))+-2.3068672000000000e+08*(var*(var*((var*var)*(var*var))*((var*var)*(var*var)))*(var*((var*var)*(var*var))*((var*var)*(var*var))))" "-(38720.0)*x^3-(5.88251136E8)*x^15+(4.2893312E8)*x^13-(1.96804608E8)*x^11+(5.637632E7)*x^9-(2.3068672E8)*x^19+46137344*x^21+(484.0)*x-(9664512.0)*x^7+(4.93092864E8)*x^17+(906048.0)*x^5";
    mkSclass "Chebyshev_23_grad" " 1.1531059200000000e+09*((var*(var*var*var)*(var*var*var))*(var*(var*var*var)*(var*var*var)))+1.1455692800000000e+09*((var*((var*var)*(var*var))*((var*var)*(var*var)))*(var*((var*var)*(var*var))*((var*var)*(var*var))))+1.8860441600000000e+08*((var*(var*var)*(var*var))*(var*(var*var)*(var*var)))+-5.8295910400000000e+08*(((var*var*var)*(var*var*var))*((var*var*var)*(var*var*var)))+4.4204160000000000e+06*((var*var*var)*(var*var*var))+-2.6312000000000000e+05*((var*var)*(var*var))+96468992.0*((var*(var*(var*var)*(var*var))*(var*(var*var)*(var*var)))*(var*(var*(var*var)*(var*var))*(var*(var*var)*(var*var))))+-1.4606008320000000e+09*((((var*var)*(var*var))*((var*var)*(var*var)))*(((var*var)*(var*var))*((var*var)*(var*var))))+-5.0646220800000000e+08*(((var*(var*var)*(var*var))*(var*(var*var)*(var*var)))*((var*(var*var)*(var*var))*(var*(var*var)*(var*var))))+6.0720000000000000e+03*(var*var)+-3.7889280000000000e+07*(((var*var)*(var*var))*((var*var)*(var*var)))-2.3000000000000000e+01" " 1.1531059200000000e+09*((var*(var*var*var)*(var*var*var))*(var*(var*var*var)*(var*var*var)))+1.1455692800000000e+09*((var*((var*var)*(var*var))*((var*var)*(var*var)))*(var*((var*var)*(var*var))*((var*var)*(var*var))))+1.8860441600000000e+08*((var*(var*var)*(var*var))*(var*(var*var)*(var*var)))+-5.8295910400000000e+08*(((var*var*var)*(var*var*var))*((var*var*var)*(var*var*var)))+4.4204160000000000e+06*((var*var*var)*(var*var*var))+-2.6312000000000000e+05*((var*var)*(var*var))+96468992.0*((var*(var*(var*var)*(var*var))*(var*(var*var)*(var*var)))*(var*(var*(var*var)*(var*var))*(var*(var*var)*(var*var))))+-1.4606008320000000e+09*((((var*var)*(var*var))*((var*var)*(var*var)))*(((var*var)*(var*var))*((var*var)*(var*var))))+-5.0646220800000000e+08*(((var*(var*var)*(var*var))*(var*(var*var)*(var*var)))*((var*(var*var)*(var*var))*(var*(var*var)*(var*var))))+6.0720000000000000e+03*(var*var)+-3.7889280000000000e+07*(((var*var)*(var*var))*((var*var)*(var*var)))-2.3000000000000000e+01" "-23.0-(5.06462208E8)*x^20-(1.460600832E9)*x^16+(6072.0)*x^2-(3.788928E7)*x^8+(1.14556928E9)*x^18+(1.15310592E9)*x^14-(5.82959104E8)*x^12+(1.88604416E8)*x^10+(4420416.0)*x^6-(263120.0)*x^4+96468992*x^22";
    mkSclass "Chebyshev_24_grad" " -5.7600000000000000e+02*var+201326592.0*(var*(var*(var*(var*var)*(var*var))*(var*(var*var)*(var*var)))*(var*(var*(var*var)*(var*var))*(var*(var*var)*(var*var))))+-1.1072962560000000e+09*(var*((var*(var*var)*(var*var))*(var*(var*var)*(var*var)))*((var*(var*var)*(var*var))*(var*(var*var)*(var*var))))+1.9768320000000000e+07*(var*(var*var*var)*(var*var*var))+-3.5861299200000000e+09*(var*(((var*var)*(var*var))*((var*var)*(var*var)))*(((var*var)*(var*var))*((var*var)*(var*var))))+-1.5375360000000000e+06*(var*(var*var)*(var*var))+3.0482104320000000e+09*(var*(var*(var*var*var)*(var*var*var))*(var*(var*var*var)*(var*var*var)))+-1.6845373440000000e+09*(var*((var*var*var)*(var*var*var))*((var*var*var)*(var*var*var)))+5.4912000000000000e+04*(var*var*var)+-1.4057472000000000e+08*(var*((var*var)*(var*var))*((var*var)*(var*var)))+6.0830515200000000e+08*(var*(var*(var*var)*(var*var))*(var*(var*var)*(var*var)))+2.6424115200000000e+09*(var*(var*((var*var)*(var*var))*((var*var)*(var*var)))*(var*((var*var)*(var*var))*((var*var)*(var*var))))" " -5.7600000000000000e+02*var+201326592.0*(var*(var*(var*(var*var)*(var*var))*(var*(var*var)*(var*var)))*(var*(var*(var*var)*(var*var))*(var*(var*var)*(var*var))))+-1.1072962560000000e+09*(var*((var*(var*var)*(var*var))*(var*(var*var)*(var*var)))*((var*(var*var)*(var*var))*(var*(var*var)*(var*var))))+1.9768320000000000e+07*(var*(var*var*var)*(var*var*var))+-3.5861299200000000e+09*(var*(((var*var)*(var*var))*((var*var)*(var*var)))*(((var*var)*(var*var))*((var*var)*(var*var))))+-1.5375360000000000e+06*(var*(var*var)*(var*var))+3.0482104320000000e+09*(var*(var*(var*var*var)*(var*var*var))*(var*(var*var*var)*(var*var*var)))+-1.6845373440000000e+09*(var*((var*var*var)*(var*var*var))*((var*var*var)*(var*var*var)))+5.4912000000000000e+04*(var*var*var)+-1.4057472000000000e+08*(var*((var*var)*(var*var))*((var*var)*(var*var)))+6.0830515200000000e+08*(var*(var*(var*var)*(var*var))*(var*(var*var)*(var*var)))+2.6424115200000000e+09*(var*(var*((var*var)*(var*var))*((var*var)*(var*var)))*(var*((var*var)*(var*var))*((var*var)*(var*var))))" "(54912.0)*x^3+(3.048210432E9)*x^15-(1.684537344E9)*x^13+(6.08305152E8)*x^11-(1.4057472E8)*x^9+(2.64241152E9)*x^19+201326592*x^23-(1.107296256E9)*x^21-(576.0)*x+(1.976832E7)*x^7-(3.58612992E9)*x^17-(1537536.0)*x^5";
    mkSclass "Chebyshev_25_grad" " -4.7628288000000000e+09*((var*(var*var*var)*(var*var*var))*(var*(var*var*var)*(var*var*var)))+-8.7162880000000000e+09*((var*((var*var)*(var*var))*((var*var)*(var*var)))*(var*((var*var)*(var*var))*((var*var)*(var*var))))+-4.9786880000000000e+08*((var*(var*var)*(var*var))*(var*(var*var)*(var*var)))+1.9009536000000000e+09*(((var*var*var)*(var*var*var))*((var*var*var)*(var*var*var)))+-8.0080000000000000e+06*((var*var*var)*(var*var*var))+4.0040000000000000e+05*((var*var)*(var*var))+-2.4117248000000000e+09*((var*(var*(var*var)*(var*var))*(var*(var*var)*(var*var)))*(var*(var*(var*var)*(var*var))*(var*(var*var)*(var*var))))+7.9380480000000000e+09*((((var*var)*(var*var))*((var*var)*(var*var)))*(((var*var)*(var*var))*((var*var)*(var*var))))+6.0555264000000000e+09*(((var*(var*var)*(var*var))*(var*(var*var)*(var*var)))*((var*(var*var)*(var*var))*(var*(var*var)*(var*var))))+-7.8000000000000000e+03*(var*var)+8.2368000000000000e+07*(((var*var)*(var*var))*((var*var)*(var*var)))+419430400.0*((((var*var*var)*(var*var*var))*((var*var*var)*(var*var*var)))*(((var*var*var)*(var*var*var))*((var*var*var)*(var*var*var))))+2.5000000000000000e+01" " -4.7628288000000000e+09*((var*(var*var*var)*(var*var*var))*(var*(var*var*var)*(var*var*var)))+-8.7162880000000000e+09*((var*((var*var)*(var*var))*((var*var)*(var*var)))*(var*((var*var)*(var*var))*((var*var)*(var*var))))+-4.9786880000000000e+08*((var*(var*var)*(var*var))*(var*(var*var)*(var*var)))+1.9009536000000000e+09*(((var*var*var)*(var*var*var))*((var*var*var)*(var*var*var)))+-8.0080000000000000e+06*((var*var*var)*(var*var*var))+4.0040000000000000e+05*((var*var)*(var*var))+-2.4117248000000000e+09*((var*(var*(var*var)*(var*var))*(var*(var*var)*(var*var)))*(var*(var*(var*var)*(var*var))*(var*(var*var)*(var*var))))+7.9380480000000000e+09*((((var*var)*(var*var))*((var*var)*(var*var)))*(((var*var)*(var*var))*((var*var)*(var*var))))+6.0555264000000000e+09*(((var*(var*var)*(var*var))*(var*(var*var)*(var*var)))*((var*(var*var)*(var*var))*(var*(var*var)*(var*var))))+-7.8000000000000000e+03*(var*var)+8.2368000000000000e+07*(((var*var)*(var*var))*((var*var)*(var*var)))+419430400.0*((((var*var*var)*(var*var*var))*((var*var*var)*(var*var*var)))*(((var*var*var)*(var*var*var))*((var*var*var)*(var*var*var))))+2.5000000000000000e+01" "25.0+(6.0555264E9)*x^20+(7.938048E9)*x^16-(7800.0)*x^2+(8.2368E7)*x^8+419430400*x^24-(8.716288E9)*x^18-(4.7628288E9)*x^14+(1.9009536E9)*x^12-(4.978688E8)*x^10-(8008000.0)*x^6+(400400.0)*x^4-(2.4117248E9)*x^22";
    mkSclass "Chebyshev_26_grad" " 6.7600000000000000e+02*var+-5.2344913920000000e+09*(var*(var*(var*(var*var)*(var*var))*(var*(var*var)*(var*var)))*(var*(var*(var*var)*(var*var))*(var*(var*var)*(var*var))))+1.3795065856000000e+10*(var*((var*(var*var)*(var*var))*(var*(var*var)*(var*var)))*((var*(var*var)*(var*var))*(var*(var*var)*(var*var))))+-3.8072320000000000e+07*(var*(var*var*var)*(var*var*var))+2.0396113920000000e+10*(var*(((var*var)*(var*var))*((var*var)*(var*var)))*(((var*var)*(var*var))*((var*var)*(var*var))))+2.4984960000000000e+06*(var*(var*var)*(var*var))+-1.3208911872000000e+10*(var*(var*(var*var*var)*(var*var*var))*(var*(var*var*var)*(var*var*var)))+5.7788989440000000e+09*(var*((var*var*var)*(var*var*var))*((var*var*var)*(var*var*var)))+-7.5712000000000000e+04*(var*var*var)+8.7241523200000000e+08*(var*(((var*var*var)*(var*var*var))*((var*var*var)*(var*var*var)))*(((var*var*var)*(var*var*var))*((var*var*var)*(var*var*var))))+3.2361472000000000e+08*(var*((var*var)*(var*var))*((var*var)*(var*var)))+-1.6945643520000000e+09*(var*(var*(var*var)*(var*var))*(var*(var*var)*(var*var)))+-2.0992491520000000e+10*(var*(var*((var*var)*(var*var))*((var*var)*(var*var)))*(var*((var*var)*(var*var))*((var*var)*(var*var))))" " 6.7600000000000000e+02*var+-5.2344913920000000e+09*(var*(var*(var*(var*var)*(var*var))*(var*(var*var)*(var*var)))*(var*(var*(var*var)*(var*var))*(var*(var*var)*(var*var))))+1.3795065856000000e+10*(var*((var*(var*var)*(var*var))*(var*(var*var)*(var*var)))*((var*(var*var)*(var*var))*(var*(var*var)*(var*var))))+-3.8072320000000000e+07*(var*(var*var*var)*(var*var*var))+2.0396113920000000e+10*(var*(((var*var)*(var*var))*((var*var)*(var*var)))*(((var*var)*(var*var))*((var*var)*(var*var))))+2.4984960000000000e+06*(var*(var*var)*(var*var))+-1.3208911872000000e+10*(var*(var*(var*var*var)*(var*var*var))*(var*(var*var*var)*(var*var*var)))+5.7788989440000000e+09*(var*((var*var*var)*(var*var*var))*((var*var*var)*(var*var*var)))+-7.5712000000000000e+04*(var*var*var)+8.7241523200000000e+08*(var*(((var*var*var)*(var*var*var))*((var*var*var)*(var*var*var)))*(((var*var*var)*(var*var*var))*((var*var*var)*(var*var*var))))+3.2361472000000000e+08*(var*((var*var)*(var*var))*((var*var)*(var*var)))+-1.6945643520000000e+09*(var*(var*(var*var)*(var*var))*(var*(var*var)*(var*var)))+-2.0992491520000000e+10*(var*(var*((var*var)*(var*var))*((var*var)*(var*var)))*(var*((var*var)*(var*var))*((var*var)*(var*var))))" "-(75712.0)*x^3-(1.3208911872E10)*x^15+(5.778898944E9)*x^13-(1.694564352E9)*x^11+872415232*x^25+(3.2361472E8)*x^9-(2.099249152E10)*x^19-(5.234491392E9)*x^23+(1.3795065856E10)*x^21+(676.0)*x-(3.807232E7)*x^7+(2.039611392E10)*x^17+(2498496.0)*x^5";
    mkSclass "Chebyshev_27_grad" " 1.7146183680000000e+10*((var*(var*var*var)*(var*var*var))*(var*(var*var*var)*(var*var*var)))+5.1774750720000000e+10*((var*((var*var)*(var*var))*((var*var)*(var*var)))*(var*((var*var)*(var*var))*((var*var)*(var*var))))+1.2098211840000000e+09*((var*(var*var)*(var*var))*(var*(var*var)*(var*var)))+-5.5725096960000000e+09*(((var*var*var)*(var*var*var))*((var*var*var)*(var*var*var)))+1.3837824000000000e+07*((var*var*var)*(var*var*var))+-5.8968000000000000e+05*((var*var)*(var*var))+3.1255953408000000e+10*((var*(var*(var*var)*(var*var))*(var*(var*var)*(var*var)))*(var*(var*(var*var)*(var*var))*(var*(var*var)*(var*var))))+1.8119393280000000e+09*((var*((var*var*var)*(var*var*var))*((var*var*var)*(var*var*var)))*(var*((var*var*var)*(var*var*var))*((var*var*var)*(var*var*var))))+-3.6006985728000000e+10*((((var*var)*(var*var))*((var*var)*(var*var)))*(((var*var)*(var*var))*((var*var)*(var*var))))+-5.0139758592000000e+10*(((var*(var*var)*(var*var))*(var*(var*var)*(var*var)))*((var*(var*var)*(var*var))*(var*(var*var)*(var*var))))+9.8280000000000000e+03*(var*var)+-1.6803072000000000e+08*(((var*var)*(var*var))*((var*var)*(var*var)))+-1.1324620800000000e+10*((((var*var*var)*(var*var*var))*((var*var*var)*(var*var*var)))*(((var*var*var)*(var*var*var))*((var*var*var)*(var*var*var))))-2.7000000000000000e+01" " 1.7146183680000000e+10*((var*(var*var*var)*(var*var*var))*(var*(var*var*var)*(var*var*var)))+5.1774750720000000e+10*((var*((var*var)*(var*var))*((var*var)*(var*var)))*(var*((var*var)*(var*var))*((var*var)*(var*var))))+1.2098211840000000e+09*((var*(var*var)*(var*var))*(var*(var*var)*(var*var)))+-5.5725096960000000e+09*(((var*var*var)*(var*var*var))*((var*var*var)*(var*var*var)))+1.3837824000000000e+07*((var*var*var)*(var*var*var))+-5.8968000000000000e+05*((var*var)*(var*var))+3.1255953408000000e+10*((var*(var*(var*var)*(var*var))*(var*(var*var)*(var*var)))*(var*(var*(var*var)*(var*var))*(var*(var*var)*(var*var))))+1.8119393280000000e+09*((var*((var*var*var)*(var*var*var))*((var*var*var)*(var*var*var)))*(var*((var*var*var)*(var*var*var))*((var*var*var)*(var*var*var))))+-3.6006985728000000e+10*((((var*var)*(var*var))*((var*var)*(var*var)))*(((var*var)*(var*var))*((var*var)*(var*var))))+-5.0139758592000000e+10*(((var*(var*var)*(var*var))*(var*(var*var)*(var*var)))*((var*(var*var)*(var*var))*(var*(var*var)*(var*var))))+9.8280000000000000e+03*(var*var)+-1.6803072000000000e+08*(((var*var)*(var*var))*((var*var)*(var*var)))+-1.1324620800000000e+10*((((var*var*var)*(var*var*var))*((var*var*var)*(var*var*var)))*(((var*var*var)*(var*var*var))*((var*var*var)*(var*var*var))))-2.7000000000000000e+01" "-27.0-(5.0139758592E10)*x^20-(3.6006985728E10)*x^16+(9828.0)*x^2-(1.6803072E8)*x^8-(1.13246208E10)*x^24+(5.177475072E10)*x^18+(1.714618368E10)*x^14-(5.572509696E9)*x^12+(1.209821184E9)*x^10+(1.3837824E7)*x^6+1811939328*x^26-(589680.0)*x^4+(3.1255953408E10)*x^22";
    mkSclass "Chebyshev_28_grad" " -7.8400000000000000e+02*var+7.0464307200000000e+10*(var*(var*(var*(var*var)*(var*var))*(var*(var*var)*(var*var)))*(var*(var*(var*var)*(var*var))*(var*(var*var)*(var*var))))+3.7580963840000000e+09*(var*(var*((var*var*var)*(var*var*var))*((var*var*var)*(var*var*var)))*(var*((var*var*var)*(var*var*var))*((var*var*var)*(var*var*var))))+-1.1884979814400000e+11*(var*((var*(var*var)*(var*var))*(var*(var*var)*(var*var)))*((var*(var*var)*(var*var))*(var*(var*var)*(var*var))))+6.9701632000000000e+07*(var*(var*var*var)*(var*var*var))+-9.6646201344000000e+10*(var*(((var*var)*(var*var))*((var*var)*(var*var)))*(((var*var)*(var*var))*((var*var)*(var*var))))+-3.9137280000000000e+06*(var*(var*var)*(var*var))+4.9787437056000000e+10*(var*(var*(var*var*var)*(var*var*var))*(var*(var*var*var)*(var*var*var)))+-1.7781227520000000e+10*(var*((var*var*var)*(var*var*var))*((var*var*var)*(var*var*var)))+1.0192000000000000e+05*(var*var*var)+-2.4427626496000000e+10*(var*(((var*var*var)*(var*var*var))*((var*var*var)*(var*var*var)))*(((var*var*var)*(var*var*var))*((var*var*var)*(var*var*var))))+-6.9701632000000000e+08*(var*((var*var)*(var*var))*((var*var)*(var*var)))+4.3341742080000000e+09*(var*(var*(var*var)*(var*var))*(var*(var*var)*(var*var)))+1.2999196672000000e+11*(var*(var*((var*var)*(var*var))*((var*var)*(var*var)))*(var*((var*var)*(var*var))*((var*var)*(var*var))))" " -7.8400000000000000e+02*var+7.0464307200000000e+10*(var*(var*(var*(var*var)*(var*var))*(var*(var*var)*(var*var)))*(var*(var*(var*var)*(var*var))*(var*(var*var)*(var*var))))+3.7580963840000000e+09*(var*(var*((var*var*var)*(var*var*var))*((var*var*var)*(var*var*var)))*(var*((var*var*var)*(var*var*var))*((var*var*var)*(var*var*var))))+-1.1884979814400000e+11*(var*((var*(var*var)*(var*var))*(var*(var*var)*(var*var)))*((var*(var*var)*(var*var))*(var*(var*var)*(var*var))))+6.9701632000000000e+07*(var*(var*var*var)*(var*var*var))+-9.6646201344000000e+10*(var*(((var*var)*(var*var))*((var*var)*(var*var)))*(((var*var)*(var*var))*((var*var)*(var*var))))+-3.9137280000000000e+06*(var*(var*var)*(var*var))+4.9787437056000000e+10*(var*(var*(var*var*var)*(var*var*var))*(var*(var*var*var)*(var*var*var)))+-1.7781227520000000e+10*(var*((var*var*var)*(var*var*var))*((var*var*var)*(var*var*var)))+1.0192000000000000e+05*(var*var*var)+-2.4427626496000000e+10*(var*(((var*var*var)*(var*var*var))*((var*var*var)*(var*var*var)))*(((var*var*var)*(var*var*var))*((var*var*var)*(var*var*var))))+-6.9701632000000000e+08*(var*((var*var)*(var*var))*((var*var)*(var*var)))+4.3341742080000000e+09*(var*(var*(var*var)*(var*var))*(var*(var*var)*(var*var)))+1.2999196672000000e+11*(var*(var*((var*var)*(var*var))*((var*var)*(var*var)))*(var*((var*var)*(var*var))*((var*var)*(var*var))))" "(101920.0)*x^3+(4.9787437056E10)*x^15-(1.778122752E10)*x^13+(4.334174208E9)*x^11-(2.4427626496E10)*x^25-(6.9701632E8)*x^9+(1.2999196672E11)*x^19+3758096384*x^27+(7.04643072E10)*x^23-(1.18849798144E11)*x^21-(784.0)*x+(6.9701632E7)*x^7-(9.6646201344E10)*x^17-(3913728.0)*x^5";
    mkSclass "Chebyshev_29_grad" " -5.5248814080000000e+10*((var*(var*var*var)*(var*var*var))*(var*(var*var*var)*(var*var*var)))+-2.5580562022400000e+11*((var*((var*var)*(var*var))*((var*var)*(var*var)))*(var*((var*var)*(var*var))*((var*var)*(var*var))))+-2.7432570880000000e+09*((var*(var*var)*(var*var))*(var*(var*var)*(var*var)))+1.4963220480000000e+10*(((var*var*var)*(var*var*var))*((var*var*var)*(var*var*var)))+-2.2969856000000000e+07*((var*var*var)*(var*var*var))+8.4448000000000000e+05*((var*var)*(var*var))+-2.7976007680000000e+11*((var*(var*(var*var)*(var*var))*(var*(var*var)*(var*var)))*(var*(var*(var*var)*(var*var))*(var*(var*var)*(var*var))))+-5.2546240512000000e+10*((var*((var*var*var)*(var*var*var))*((var*var*var)*(var*var*var)))*(var*((var*var*var)*(var*var*var))*((var*var*var)*(var*var*var))))+1.4180528947200000e+11*((((var*var)*(var*var))*((var*var)*(var*var)))*(((var*var)*(var*var))*((var*var)*(var*var))))+3.2312288870400000e+11*(((var*(var*var)*(var*var))*(var*(var*var)*(var*var)))*((var*(var*var)*(var*var))*(var*(var*var)*(var*var))))+-1.2180000000000000e+04*(var*var)+3.2485939200000000e+08*(((var*var)*(var*var))*((var*var)*(var*var)))+1.5812526080000000e+11*((((var*var*var)*(var*var*var))*((var*var*var)*(var*var*var)))*(((var*var*var)*(var*var*var))*((var*var*var)*(var*var*var))))+7.7846282240000000e+09*(((var*(var*var*var)*(var*var*var))*(var*(var*var*var)*(var*var*var)))*((var*(var*var*var)*(var*var*var))*(var*(var*var*var)*(var*var*var))))+2.9000000000000000e+01" " -5.5248814080000000e+10*((var*(var*var*var)*(var*var*var))*(var*(var*var*var)*(var*var*var)))+-2.5580562022400000e+11*((var*((var*var)*(var*var))*((var*var)*(var*var)))*(var*((var*var)*(var*var))*((var*var)*(var*var))))+-2.7432570880000000e+09*((var*(var*var)*(var*var))*(var*(var*var)*(var*var)))+1.4963220480000000e+10*(((var*var*var)*(var*var*var))*((var*var*var)*(var*var*var)))+-2.2969856000000000e+07*((var*var*var)*(var*var*var))+8.4448000000000000e+05*((var*var)*(var*var))+-2.7976007680000000e+11*((var*(var*(var*var)*(var*var))*(var*(var*var)*(var*var)))*(var*(var*(var*var)*(var*var))*(var*(var*var)*(var*var))))+-5.2546240512000000e+10*((var*((var*var*var)*(var*var*var))*((var*var*var)*(var*var*var)))*(var*((var*var*var)*(var*var*var))*((var*var*var)*(var*var*var))))+1.4180528947200000e+11*((((var*var)*(var*var))*((var*var)*(var*var)))*(((var*var)*(var*var))*((var*var)*(var*var))))+3.2312288870400000e+11*(((var*(var*var)*(var*var))*(var*(var*var)*(var*var)))*((var*(var*var)*(var*var))*(var*(var*var)*(var*var))))+-1.2180000000000000e+04*(var*var)+3.2485939200000000e+08*(((var*var)*(var*var))*((var*var)*(var*var)))+1.5812526080000000e+11*((((var*var*var)*(var*var*var))*((var*var*var)*(var*var*var)))*(((var*var*var)*(var*var*var))*((var*var*var)*(var*var*var))))+7.7846282240000000e+09*(((var*(var*var*var)*(var*var*var))*(var*(var*var*var)*(var*var*var)))*((var*(var*var*var)*(var*var*var))*(var*(var*var*var)*(var*var*var))))+2.9000000000000000e+01" "29.0+(3.23122888704E11)*x^20+(1.41805289472E11)*x^16-(12180.0)*x^2+(3.24859392E8)*x^8+7784628224*x^28+(1.581252608E11)*x^24-(2.55805620224E11)*x^18-(5.524881408E10)*x^14+(1.496322048E10)*x^12-(2.743257088E9)*x^10-(2.2969856E7)*x^6-(5.2546240512E10)*x^26+(844480.0)*x^4-(2.797600768E11)*x^22";
    mkSclass "Chebyshev_0_hess" "0.0" "0.0" "0";
    mkSclass "Chebyshev_1_hess" "0.0" "0.0" "0";
    mkSclass "Chebyshev_2_hess" "4.0" "4.0" "4";
    mkSclass "Chebyshev_3_hess" "24.0*var" "24.0*var" "24*x";
    mkSclass "Chebyshev_4_hess" " 96.0*(var*var)-1.6000000000000000e+01" " 96.0*(var*var)-1.6000000000000000e+01" "-16.0+96*x^2";
    mkSclass "Chebyshev_5_hess" " -1.2000000000000000e+02*var+320.0*(var*var*var)" " -1.2000000000000000e+02*var+320.0*(var*var*var)" "320*x^3-(120.0)*x";
    mkSclass "Chebyshev_6_hess" " 960.0*((var*var)*(var*var))+-5.7600000000000000e+02*(var*var)+3.6000000000000000e+01" " 960.0*((var*var)*(var*var))+-5.7600000000000000e+02*(var*var)+3.6000000000000000e+01" "36.0-(576.0)*x^2+960*x^4";
    mkSclass "Chebyshev_7_hess" " 3.3600000000000000e+02*var+2688.0*(var*(var*var)*(var*var))+-2.2400000000000000e+03*(var*var*var)" " 3.3600000000000000e+02*var+2688.0*(var*(var*var)*(var*var))+-2.2400000000000000e+03*(var*var*var)" "-(2240.0)*x^3+(336.0)*x+2688*x^5";
    mkSclass "Chebyshev_8_hess" " 7168.0*((var*var*var)*(var*var*var))+-7.6800000000000000e+03*((var*var)*(var*var))+1.9200000000000000e+03*(var*var)-6.4000000000000000e+01" " 7168.0*((var*var*var)*(var*var*var))+-7.6800000000000000e+03*((var*var)*(var*var))+1.9200000000000000e+03*(var*var)-6.4000000000000000e+01" "-64.0+(1920.0)*x^2+7168*x^6-(7680.0)*x^4";
    mkSclass "Chebyshev_9_hess" " -7.2000000000000000e+02*var+18432.0*(var*(var*var*var)*(var*var*var))+-2.4192000000000000e+04*(var*(var*var)*(var*var))+8.6400000000000000e+03*(var*var*var)" " -7.2000000000000000e+02*var+18432.0*(var*(var*var*var)*(var*var*var))+-2.4192000000000000e+04*(var*(var*var)*(var*var))+8.6400000000000000e+03*(var*var*var)" "(8640.0)*x^3-(720.0)*x+18432*x^7-(24192.0)*x^5";
    mkSclass "Chebyshev_10_hess" " -7.1680000000000000e+04*((var*var*var)*(var*var*var))+3.3600000000000000e+04*((var*var)*(var*var))+-4.8000000000000000e+03*(var*var)+46080.0*(((var*var)*(var*var))*((var*var)*(var*var)))+1.0000000000000000e+02" " -7.1680000000000000e+04*((var*var*var)*(var*var*var))+3.3600000000000000e+04*((var*var)*(var*var))+-4.8000000000000000e+03*(var*var)+46080.0*(((var*var)*(var*var))*((var*var)*(var*var)))+1.0000000000000000e+02" "100.0-(4800.0)*x^2+46080*x^8-(71680.0)*x^6+(33600.0)*x^4";
    mkSclass "Chebyshev_11_hess" " 1.3200000000000000e+03*var+-2.0275200000000000e+05*(var*(var*var*var)*(var*var*var))+1.1827200000000000e+05*(var*(var*var)*(var*var))+-2.4640000000000000e+04*(var*var*var)+112640.0*(var*((var*var)*(var*var))*((var*var)*(var*var)))" " 1.3200000000000000e+03*var+-2.0275200000000000e+05*(var*(var*var*var)*(var*var*var))+1.1827200000000000e+05*(var*(var*var)*(var*var))+-2.4640000000000000e+04*(var*var*var)+112640.0*(var*((var*var)*(var*var))*((var*var)*(var*var)))" "-(24640.0)*x^3+112640*x^9+(1320.0)*x-(202752.0)*x^7+(118272.0)*x^5";
    mkSclass "Chebyshev_12_hess" " 270336.0*((var*(var*var)*(var*var))*(var*(var*var)*(var*var)))+3.8707200000000000e+05*((var*var*var)*(var*var*var))+-1.0752000000000000e+05*((var*var)*(var*var))+1.0080000000000000e+04*(var*var)+-5.5296000000000000e+05*(((var*var)*(var*var))*((var*var)*(var*var)))-1.4400000000000000e+02" " 270336.0*((var*(var*var)*(var*var))*(var*(var*var)*(var*var)))+3.8707200000000000e+05*((var*var*var)*(var*var*var))+-1.0752000000000000e+05*((var*var)*(var*var))+1.0080000000000000e+04*(var*var)+-5.5296000000000000e+05*(((var*var)*(var*var))*((var*var)*(var*var)))-1.4400000000000000e+02" "-144.0+(10080.0)*x^2-(552960.0)*x^8+270336*x^10+(387072.0)*x^6-(107520.0)*x^4";
    mkSclass "Chebyshev_13_hess" " -2.1840000000000000e+03*var+1.1980800000000000e+06*(var*(var*var*var)*(var*var*var))+-4.1932800000000000e+05*(var*(var*var)*(var*var))+5.8240000000000000e+04*(var*var*var)+-1.4643200000000000e+06*(var*((var*var)*(var*var))*((var*var)*(var*var)))+638976.0*(var*(var*(var*var)*(var*var))*(var*(var*var)*(var*var)))" " -2.1840000000000000e+03*var+1.1980800000000000e+06*(var*(var*var*var)*(var*var*var))+-4.1932800000000000e+05*(var*(var*var)*(var*var))+5.8240000000000000e+04*(var*var*var)+-1.4643200000000000e+06*(var*((var*var)*(var*var))*((var*var)*(var*var)))+638976.0*(var*(var*(var*var)*(var*var))*(var*(var*var)*(var*var)))" "(58240.0)*x^3+638976*x^11-(1464320.0)*x^9-(2184.0)*x+(1198080.0)*x^7-(419328.0)*x^5";
    mkSclass "Chebyshev_14_hess" " -3.7847040000000000e+06*((var*(var*var)*(var*var))*(var*(var*var)*(var*var)))+1490944.0*(((var*var*var)*(var*var*var))*((var*var*var)*(var*var*var)))+-1.5052800000000000e+06*((var*var*var)*(var*var*var))+2.8224000000000000e+05*((var*var)*(var*var))+-1.8816000000000000e+04*(var*var)+3.5481600000000000e+06*(((var*var)*(var*var))*((var*var)*(var*var)))+1.9600000000000000e+02" " -3.7847040000000000e+06*((var*(var*var)*(var*var))*(var*(var*var)*(var*var)))+1490944.0*(((var*var*var)*(var*var*var))*((var*var*var)*(var*var*var)))+-1.5052800000000000e+06*((var*var*var)*(var*var*var))+2.8224000000000000e+05*((var*var)*(var*var))+-1.8816000000000000e+04*(var*var)+3.5481600000000000e+06*(((var*var)*(var*var))*((var*var)*(var*var)))+1.9600000000000000e+02" "196.0-(18816.0)*x^2+(3548160.0)*x^8+1490944*x^12-(3784704.0)*x^10-(1505280.0)*x^6+(282240.0)*x^4";
    mkSclass "Chebyshev_15_hess" " 3.3600000000000000e+03*var+-5.0688000000000000e+06*(var*(var*var*var)*(var*var*var))+1.2096000000000000e+06*(var*(var*var)*(var*var))+3440640.0*(var*((var*var*var)*(var*var*var))*((var*var*var)*(var*var*var)))+-1.2096000000000000e+05*(var*var*var)+1.0137600000000000e+07*(var*((var*var)*(var*var))*((var*var)*(var*var)))+-9.5846400000000000e+06*(var*(var*(var*var)*(var*var))*(var*(var*var)*(var*var)))" " 3.3600000000000000e+03*var+-5.0688000000000000e+06*(var*(var*var*var)*(var*var*var))+1.2096000000000000e+06*(var*(var*var)*(var*var))+3440640.0*(var*((var*var*var)*(var*var*var))*((var*var*var)*(var*var*var)))+-1.2096000000000000e+05*(var*var*var)+1.0137600000000000e+07*(var*((var*var)*(var*var))*((var*var)*(var*var)))+-9.5846400000000000e+06*(var*(var*(var*var)*(var*var))*(var*(var*var)*(var*var)))" "-(120960.0)*x^3+3440640*x^13-(9584640.0)*x^11+(1.01376E7)*x^9+(3360.0)*x-(5068800.0)*x^7+(1209600.0)*x^5";
    mkSclass "Chebyshev_16_hess" " 7864320.0*((var*(var*var*var)*(var*var*var))*(var*(var*var*var)*(var*var*var)))+2.8114944000000000e+07*((var*(var*var)*(var*var))*(var*(var*var)*(var*var)))+-2.3855104000000000e+07*(((var*var*var)*(var*var*var))*((var*var*var)*(var*var*var)))+4.7308800000000000e+06*((var*var*var)*(var*var*var))+-6.4512000000000000e+05*((var*var)*(var*var))+3.2256000000000000e+04*(var*var)+-1.6220160000000000e+07*(((var*var)*(var*var))*((var*var)*(var*var)))-2.5600000000000000e+02" " 7864320.0*((var*(var*var*var)*(var*var*var))*(var*(var*var*var)*(var*var*var)))+2.8114944000000000e+07*((var*(var*var)*(var*var))*(var*(var*var)*(var*var)))+-2.3855104000000000e+07*(((var*var*var)*(var*var*var))*((var*var*var)*(var*var*var)))+4.7308800000000000e+06*((var*var*var)*(var*var*var))+-6.4512000000000000e+05*((var*var)*(var*var))+3.2256000000000000e+04*(var*var)+-1.6220160000000000e+07*(((var*var)*(var*var))*((var*var)*(var*var)))-2.5600000000000000e+02" "-256.0+(32256.0)*x^2-(1.622016E7)*x^8+7864320*x^14-(2.3855104E7)*x^12+(2.8114944E7)*x^10+(4730880.0)*x^6-(645120.0)*x^4";
    mkSclass "Chebyshev_17_hess" " -4.8960000000000000e+03*var+1.7233920000000000e+07*(var*(var*var*var)*(var*var*var))+-3.0159360000000000e+06*(var*(var*var)*(var*var))+17825792.0*(var*(var*(var*var*var)*(var*var*var))*(var*(var*var*var)*(var*var*var)))+-5.8490880000000000e+07*(var*((var*var*var)*(var*var*var))*((var*var*var)*(var*var*var)))+2.2848000000000000e+05*(var*var*var)+-4.9786880000000000e+07*(var*((var*var)*(var*var))*((var*var)*(var*var)))+7.6038144000000000e+07*(var*(var*(var*var)*(var*var))*(var*(var*var)*(var*var)))" " -4.8960000000000000e+03*var+1.7233920000000000e+07*(var*(var*var*var)*(var*var*var))+-3.0159360000000000e+06*(var*(var*var)*(var*var))+17825792.0*(var*(var*(var*var*var)*(var*var*var))*(var*(var*var*var)*(var*var*var)))+-5.8490880000000000e+07*(var*((var*var*var)*(var*var*var))*((var*var*var)*(var*var*var)))+2.2848000000000000e+05*(var*var*var)+-4.9786880000000000e+07*(var*((var*var)*(var*var))*((var*var)*(var*var)))+7.6038144000000000e+07*(var*(var*(var*var)*(var*var))*(var*(var*var)*(var*var)))" "(228480.0)*x^3+17825792*x^15-(5.849088E7)*x^13+(7.6038144E7)*x^11-(4.978688E7)*x^9-(4896.0)*x+(1.723392E7)*x^7-(3015936.0)*x^5";
    mkSclass "Chebyshev_18_hess" " -1.4155776000000000e+08*((var*(var*var*var)*(var*var*var))*(var*(var*var*var)*(var*var*var)))+-1.4760345600000000e+08*((var*(var*var)*(var*var))*(var*(var*var)*(var*var)))+2.0127744000000000e+08*(((var*var*var)*(var*var*var))*((var*var*var)*(var*var*var)))+-1.2773376000000000e+07*((var*var*var)*(var*var*var))+1.3305600000000000e+06*((var*var)*(var*var))+40108032.0*((((var*var)*(var*var))*((var*var)*(var*var)))*(((var*var)*(var*var))*((var*var)*(var*var))))+-5.1840000000000000e+04*(var*var)+5.9304960000000000e+07*(((var*var)*(var*var))*((var*var)*(var*var)))+3.2400000000000000e+02" " -1.4155776000000000e+08*((var*(var*var*var)*(var*var*var))*(var*(var*var*var)*(var*var*var)))+-1.4760345600000000e+08*((var*(var*var)*(var*var))*(var*(var*var)*(var*var)))+2.0127744000000000e+08*(((var*var*var)*(var*var*var))*((var*var*var)*(var*var*var)))+-1.2773376000000000e+07*((var*var*var)*(var*var*var))+1.3305600000000000e+06*((var*var)*(var*var))+40108032.0*((((var*var)*(var*var))*((var*var)*(var*var)))*(((var*var)*(var*var))*((var*var)*(var*var))))+-5.1840000000000000e+04*(var*var)+5.9304960000000000e+07*(((var*var)*(var*var))*((var*var)*(var*var)))+3.2400000000000000e+02" "324.0+40108032*x^16-(51840.0)*x^2+(5.930496E7)*x^8-(1.4155776E8)*x^14+(2.0127744E8)*x^12-(1.47603456E8)*x^10-(1.2773376E7)*x^6+(1330560.0)*x^4";
    mkSclass "Chebyshev_19_hess" " 6.8400000000000000e+03*var+-5.0079744000000000e+07*(var*(var*var*var)*(var*var*var))+89653248.0*(var*(((var*var)*(var*var))*((var*var)*(var*var)))*(((var*var)*(var*var))*((var*var)*(var*var))))+6.7415040000000000e+06*(var*(var*var)*(var*var))+-3.3869004800000000e+08*(var*(var*(var*var*var)*(var*var*var))*(var*(var*var*var)*(var*var*var)))+5.2297728000000000e+08*(var*((var*var*var)*(var*var*var))*((var*var*var)*(var*var*var)))+-4.0128000000000000e+05*(var*var*var)+1.9475456000000000e+08*(var*((var*var)*(var*var))*((var*var)*(var*var)))+-4.2491904000000000e+08*(var*(var*(var*var)*(var*var))*(var*(var*var)*(var*var)))" " 6.8400000000000000e+03*var+-5.0079744000000000e+07*(var*(var*var*var)*(var*var*var))+89653248.0*(var*(((var*var)*(var*var))*((var*var)*(var*var)))*(((var*var)*(var*var))*((var*var)*(var*var))))+6.7415040000000000e+06*(var*(var*var)*(var*var))+-3.3869004800000000e+08*(var*(var*(var*var*var)*(var*var*var))*(var*(var*var*var)*(var*var*var)))+5.2297728000000000e+08*(var*((var*var*var)*(var*var*var))*((var*var*var)*(var*var*var)))+-4.0128000000000000e+05*(var*var*var)+1.9475456000000000e+08*(var*((var*var)*(var*var))*((var*var)*(var*var)))+-4.2491904000000000e+08*(var*(var*(var*var)*(var*var))*(var*(var*var)*(var*var)))" "-(401280.0)*x^3-(3.38690048E8)*x^15+(5.2297728E8)*x^13-(4.2491904E8)*x^11+(1.9475456E8)*x^9+(6840.0)*x-(5.0079744E7)*x^7+89653248*x^17+(6741504.0)*x^5";
    mkSclass "Chebyshev_20_hess" " 1.3369344000000000e+09*((var*(var*var*var)*(var*var*var))*(var*(var*var*var)*(var*var*var)))+199229440.0*((var*((var*var)*(var*var))*((var*var)*(var*var)))*(var*((var*var)*(var*var))*((var*var)*(var*var))))+6.1501440000000000e+08*((var*(var*var)*(var*var))*(var*(var*var)*(var*var)))+-1.1927552000000000e+09*(((var*var*var)*(var*var*var))*((var*var*var)*(var*var*var)))+3.0750720000000000e+07*((var*var*var)*(var*var*var))+-2.5344000000000000e+06*((var*var)*(var*var))+-8.0216064000000000e+08*((((var*var)*(var*var))*((var*var)*(var*var)))*(((var*var)*(var*var))*((var*var)*(var*var))))+7.9200000000000000e+04*(var*var)+-1.8450432000000000e+08*(((var*var)*(var*var))*((var*var)*(var*var)))-4.0000000000000000e+02" " 1.3369344000000000e+09*((var*(var*var*var)*(var*var*var))*(var*(var*var*var)*(var*var*var)))+199229440.0*((var*((var*var)*(var*var))*((var*var)*(var*var)))*(var*((var*var)*(var*var))*((var*var)*(var*var))))+6.1501440000000000e+08*((var*(var*var)*(var*var))*(var*(var*var)*(var*var)))+-1.1927552000000000e+09*(((var*var*var)*(var*var*var))*((var*var*var)*(var*var*var)))+3.0750720000000000e+07*((var*var*var)*(var*var*var))+-2.5344000000000000e+06*((var*var)*(var*var))+-8.0216064000000000e+08*((((var*var)*(var*var))*((var*var)*(var*var)))*(((var*var)*(var*var))*((var*var)*(var*var))))+7.9200000000000000e+04*(var*var)+-1.8450432000000000e+08*(((var*var)*(var*var))*((var*var)*(var*var)))-4.0000000000000000e+02" "-400.0-(8.0216064E8)*x^16+(79200.0)*x^2-(1.8450432E8)*x^8+199229440*x^18+(1.3369344E9)*x^14-(1.1927552E9)*x^12+(6.150144E8)*x^10+(3.075072E7)*x^6-(2534400.0)*x^4";
    mkSclass "Chebyshev_21_hess" " -9.2400000000000000e+03*var+1.2915302400000000e+08*(var*(var*var*var)*(var*var*var))+-1.8827182080000000e+09*(var*(((var*var)*(var*var))*((var*var)*(var*var)))*(((var*var)*(var*var))*((var*var)*(var*var))))+-1.3837824000000000e+07*(var*(var*var)*(var*var))+3.3690746880000000e+09*(var*(var*(var*var*var)*(var*var*var))*(var*(var*var*var)*(var*var*var)))+-3.2754892800000000e+09*(var*((var*var*var)*(var*var*var))*((var*var*var)*(var*var*var)))+6.6528000000000000e+05*(var*var*var)+-6.4576512000000000e+08*(var*((var*var)*(var*var))*((var*var)*(var*var)))+1.8785894400000000e+09*(var*(var*(var*var)*(var*var))*(var*(var*var)*(var*var)))+440401920.0*(var*(var*((var*var)*(var*var))*((var*var)*(var*var)))*(var*((var*var)*(var*var))*((var*var)*(var*var))))" " -9.2400000000000000e+03*var+1.2915302400000000e+08*(var*(var*var*var)*(var*var*var))+-1.8827182080000000e+09*(var*(((var*var)*(var*var))*((var*var)*(var*var)))*(((var*var)*(var*var))*((var*var)*(var*var))))+-1.3837824000000000e+07*(var*(var*var)*(var*var))+3.3690746880000000e+09*(var*(var*(var*var*var)*(var*var*var))*(var*(var*var*var)*(var*var*var)))+-3.2754892800000000e+09*(var*((var*var*var)*(var*var*var))*((var*var*var)*(var*var*var)))+6.6528000000000000e+05*(var*var*var)+-6.4576512000000000e+08*(var*((var*var)*(var*var))*((var*var)*(var*var)))+1.8785894400000000e+09*(var*(var*(var*var)*(var*var))*(var*(var*var)*(var*var)))+440401920.0*(var*(var*((var*var)*(var*var))*((var*var)*(var*var)))*(var*((var*var)*(var*var))*((var*var)*(var*var))))" "(665280.0)*x^3+(3.369074688E9)*x^15-(3.27548928E9)*x^13+(1.87858944E9)*x^11-(6.4576512E8)*x^9+440401920*x^19-(9240.0)*x+(1.29153024E8)*x^7-(1.882718208E9)*x^17-(1.3837824E7)*x^5";
    mkSclass "Chebyshev_22_hess" " -8.8237670400000000e+09*((var*(var*var*var)*(var*var*var))*(var*(var*var*var)*(var*var*var)))+-4.3830476800000000e+09*((var*((var*var)*(var*var))*((var*var)*(var*var)))*(var*((var*var)*(var*var))*((var*var)*(var*var))))+-2.1648506880000000e+09*((var*(var*var)*(var*var))*(var*(var*var)*(var*var)))+5.5761305600000000e+09*(((var*var*var)*(var*var*var))*((var*var*var)*(var*var*var)))+-6.7651584000000000e+07*((var*var*var)*(var*var*var))+4.5302400000000000e+06*((var*var)*(var*var))+8.3825786880000000e+09*((((var*var)*(var*var))*((var*var)*(var*var)))*(((var*var)*(var*var))*((var*var)*(var*var))))+9.6888422400000000e+08*(((var*(var*var)*(var*var))*(var*(var*var)*(var*var)))*((var*(var*var)*(var*var))*(var*(var*var)*(var*var))))+-1.1616000000000000e+05*(var*var)+5.0738688000000000e+08*(((var*var)*(var*var))*((var*var)*(var*var)))+4.8400000000000000e+02" " -8.8237670400000000e+09*((var*(var*var*var)*(var*var*var))*(var*(var*var*var)*(var*var*var)))+-4.3830476800000000e+09*((var*((var*var)*(var*var))*((var*var)*(var*var)))*(var*((var*var)*(var*var))*((var*var)*(var*var))))+-2.1648506880000000e+09*((var*(var*var)*(var*var))*(var*(var*var)*(var*var)))+5.5761305600000000e+09*(((var*var*var)*(var*var*var))*((var*var*var)*(var*var*var)))+-6.7651584000000000e+07*((var*var*var)*(var*var*var))+4.5302400000000000e+06*((var*var)*(var*var))+8.3825786880000000e+09*((((var*var)*(var*var))*((var*var)*(var*var)))*(((var*var)*(var*var))*((var*var)*(var*var))))+9.6888422400000000e+08*(((var*(var*var)*(var*var))*(var*(var*var)*(var*var)))*((var*(var*var)*(var*var))*(var*(var*var)*(var*var))))+-1.1616000000000000e+05*(var*var)+5.0738688000000000e+08*(((var*var)*(var*var))*((var*var)*(var*var)))+4.8400000000000000e+02" "484.0+968884224*x^20+(8.382578688E9)*x^16-(116160.0)*x^2+(5.0738688E8)*x^8-(4.38304768E9)*x^18-(8.82376704E9)*x^14+(5.57613056E9)*x^12-(2.164850688E9)*x^10-(6.7651584E7)*x^6+(4530240.0)*x^4";
    mkSclass "Chebyshev_23_hess" " 1.2144000000000000e+04*var+2.1223178240000000e+09*(var*((var*(var*var)*(var*var))*(var*(var*var)*(var*var)))*((var*(var*var)*(var*var))*(var*(var*var)*(var*var))))+-3.0311424000000000e+08*(var*(var*var*var)*(var*var*var))+2.0620247040000000e+10*(var*(((var*var)*(var*var))*((var*var)*(var*var)))*(((var*var)*(var*var))*((var*var)*(var*var))))+2.6522496000000000e+07*(var*(var*var)*(var*var))+-2.3369613312000000e+10*(var*(var*(var*var*var)*(var*var*var))*(var*(var*var*var)*(var*var*var)))+1.6143482880000000e+10*(var*((var*var*var)*(var*var*var))*((var*var*var)*(var*var*var)))+-1.0524800000000000e+06*(var*var*var)+1.8860441600000000e+09*(var*((var*var)*(var*var))*((var*var)*(var*var)))+-6.9955092480000000e+09*(var*(var*(var*var)*(var*var))*(var*(var*var)*(var*var)))+-1.0129244160000000e+10*(var*(var*((var*var)*(var*var))*((var*var)*(var*var)))*(var*((var*var)*(var*var))*((var*var)*(var*var))))" " 1.2144000000000000e+04*var+2.1223178240000000e+09*(var*((var*(var*var)*(var*var))*(var*(var*var)*(var*var)))*((var*(var*var)*(var*var))*(var*(var*var)*(var*var))))+-3.0311424000000000e+08*(var*(var*var*var)*(var*var*var))+2.0620247040000000e+10*(var*(((var*var)*(var*var))*((var*var)*(var*var)))*(((var*var)*(var*var))*((var*var)*(var*var))))+2.6522496000000000e+07*(var*(var*var)*(var*var))+-2.3369613312000000e+10*(var*(var*(var*var*var)*(var*var*var))*(var*(var*var*var)*(var*var*var)))+1.6143482880000000e+10*(var*((var*var*var)*(var*var*var))*((var*var*var)*(var*var*var)))+-1.0524800000000000e+06*(var*var*var)+1.8860441600000000e+09*(var*((var*var)*(var*var))*((var*var)*(var*var)))+-6.9955092480000000e+09*(var*(var*(var*var)*(var*var))*(var*(var*var)*(var*var)))+-1.0129244160000000e+10*(var*(var*((var*var)*(var*var))*((var*var)*(var*var)))*(var*((var*var)*(var*var))*((var*var)*(var*var))))" "-(1052480.0)*x^3-(2.3369613312E10)*x^15+(1.614348288E10)*x^13-(6.995509248E9)*x^11+(1.88604416E9)*x^9-(1.012924416E10)*x^19+2122317824*x^21+(12144.0)*x-(3.0311424E8)*x^7+(2.062024704E10)*x^17+(2.6522496E7)*x^5";
    mkSclass "Chebyshev_24_hess" " 4.5723156480000000e+10*((var*(var*var*var)*(var*var*var))*(var*(var*var*var)*(var*var*var)))+5.0205818880000000e+10*((var*((var*var)*(var*var))*((var*var)*(var*var)))*(var*((var*var)*(var*var))*((var*var)*(var*var))))+6.6913566720000000e+09*((var*(var*var)*(var*var))*(var*(var*var)*(var*var)))+-2.1898985472000000e+10*(((var*var*var)*(var*var*var))*((var*var*var)*(var*var*var)))+1.3837824000000000e+08*((var*var*var)*(var*var*var))+-7.6876800000000000e+06*((var*var)*(var*var))+4.6305116160000000e+09*((var*(var*(var*var)*(var*var))*(var*(var*var)*(var*var)))*(var*(var*(var*var)*(var*var))*(var*(var*var)*(var*var))))+-6.0964208640000000e+10*((((var*var)*(var*var))*((var*var)*(var*var)))*(((var*var)*(var*var))*((var*var)*(var*var))))+-2.3253221376000000e+10*(((var*(var*var)*(var*var))*(var*(var*var)*(var*var)))*((var*(var*var)*(var*var))*(var*(var*var)*(var*var))))+1.6473600000000000e+05*(var*var)+-1.2651724800000000e+09*(((var*var)*(var*var))*((var*var)*(var*var)))-5.7600000000000000e+02" " 4.5723156480000000e+10*((var*(var*var*var)*(var*var*var))*(var*(var*var*var)*(var*var*var)))+5.0205818880000000e+10*((var*((var*var)*(var*var))*((var*var)*(var*var)))*(var*((var*var)*(var*var))*((var*var)*(var*var))))+6.6913566720000000e+09*((var*(var*var)*(var*var))*(var*(var*var)*(var*var)))+-2.1898985472000000e+10*(((var*var*var)*(var*var*var))*((var*var*var)*(var*var*var)))+1.3837824000000000e+08*((var*var*var)*(var*var*var))+-7.6876800000000000e+06*((var*var)*(var*var))+4.6305116160000000e+09*((var*(var*(var*var)*(var*var))*(var*(var*var)*(var*var)))*(var*(var*(var*var)*(var*var))*(var*(var*var)*(var*var))))+-6.0964208640000000e+10*((((var*var)*(var*var))*((var*var)*(var*var)))*(((var*var)*(var*var))*((var*var)*(var*var))))+-2.3253221376000000e+10*(((var*(var*var)*(var*var))*(var*(var*var)*(var*var)))*((var*(var*var)*(var*var))*(var*(var*var)*(var*var))))+1.6473600000000000e+05*(var*var)+-1.2651724800000000e+09*(((var*var)*(var*var))*((var*var)*(var*var)))-5.7600000000000000e+02" "-576.0-(2.3253221376E10)*x^20-(6.096420864E10)*x^16+(164736.0)*x^2-(1.26517248E9)*x^8+(5.020581888E10)*x^18+(4.572315648E10)*x^14-(2.1898985472E10)*x^12+(6.691356672E9)*x^10+(1.3837824E8)*x^6-(7687680.0)*x^4+4630511616*x^22";
    mkSclass "Chebyshev_25_hess" " -1.5600000000000000e+04*var+1.0066329600000000e+10*(var*(var*(var*(var*var)*(var*var))*(var*(var*var)*(var*var)))*(var*(var*(var*var)*(var*var))*(var*(var*var)*(var*var))))+-5.3057945600000000e+10*(var*((var*(var*var)*(var*var))*(var*(var*var)*(var*var)))*((var*(var*var)*(var*var))*(var*(var*var)*(var*var))))+6.5894400000000000e+08*(var*(var*var*var)*(var*var*var))+-1.5689318400000000e+11*(var*(((var*var)*(var*var))*((var*var)*(var*var)))*(((var*var)*(var*var))*((var*var)*(var*var))))+-4.8048000000000000e+07*(var*(var*var)*(var*var))+1.2700876800000000e+11*(var*(var*(var*var*var)*(var*var*var))*(var*(var*var*var)*(var*var*var)))+-6.6679603200000000e+10*(var*((var*var*var)*(var*var*var))*((var*var*var)*(var*var*var)))+1.6016000000000000e+06*(var*var*var)+-4.9786880000000000e+09*(var*((var*var)*(var*var))*((var*var)*(var*var)))+2.2811443200000000e+10*(var*(var*(var*var)*(var*var))*(var*(var*var)*(var*var)))+1.2111052800000000e+11*(var*(var*((var*var)*(var*var))*((var*var)*(var*var)))*(var*((var*var)*(var*var))*((var*var)*(var*var))))" " -1.5600000000000000e+04*var+1.0066329600000000e+10*(var*(var*(var*(var*var)*(var*var))*(var*(var*var)*(var*var)))*(var*(var*(var*var)*(var*var))*(var*(var*var)*(var*var))))+-5.3057945600000000e+10*(var*((var*(var*var)*(var*var))*(var*(var*var)*(var*var)))*((var*(var*var)*(var*var))*(var*(var*var)*(var*var))))+6.5894400000000000e+08*(var*(var*var*var)*(var*var*var))+-1.5689318400000000e+11*(var*(((var*var)*(var*var))*((var*var)*(var*var)))*(((var*var)*(var*var))*((var*var)*(var*var))))+-4.8048000000000000e+07*(var*(var*var)*(var*var))+1.2700876800000000e+11*(var*(var*(var*var*var)*(var*var*var))*(var*(var*var*var)*(var*var*var)))+-6.6679603200000000e+10*(var*((var*var*var)*(var*var*var))*((var*var*var)*(var*var*var)))+1.6016000000000000e+06*(var*var*var)+-4.9786880000000000e+09*(var*((var*var)*(var*var))*((var*var)*(var*var)))+2.2811443200000000e+10*(var*(var*(var*var)*(var*var))*(var*(var*var)*(var*var)))+1.2111052800000000e+11*(var*(var*((var*var)*(var*var))*((var*var)*(var*var)))*(var*((var*var)*(var*var))*((var*var)*(var*var))))" "(1601600.0)*x^3+(1.27008768E11)*x^15-(6.66796032E10)*x^13+(2.28114432E10)*x^11-(4.978688E9)*x^9+(1.21110528E11)*x^19+10066329600*x^23-(5.30579456E10)*x^21-(15600.0)*x+(6.58944E8)*x^7-(1.56893184E11)*x^17-(4.8048E7)*x^5";
    mkSclass "Chebyshev_26_hess" " -1.9813367808000000e+11*((var*(var*var*var)*(var*var*var))*(var*(var*var*var)*(var*var*var)))+-3.9885733888000000e+11*((var*((var*var)*(var*var))*((var*var)*(var*var)))*(var*((var*var)*(var*var))*((var*var)*(var*var))))+-1.8640207872000000e+10*((var*(var*var)*(var*var))*(var*(var*var)*(var*var)))+7.5125686272000000e+10*(((var*var*var)*(var*var*var))*((var*var*var)*(var*var*var)))+-2.6650624000000000e+08*((var*var*var)*(var*var*var))+1.2492480000000000e+07*((var*var)*(var*var))+-1.2039330201600000e+11*((var*(var*(var*var)*(var*var))*(var*(var*var)*(var*var)))*(var*(var*(var*var)*(var*var))*(var*(var*var)*(var*var))))+3.4673393664000000e+11*((((var*var)*(var*var))*((var*var)*(var*var)))*(((var*var)*(var*var))*((var*var)*(var*var))))+2.8969638297600000e+11*(((var*(var*var)*(var*var))*(var*(var*var)*(var*var)))*((var*(var*var)*(var*var))*(var*(var*var)*(var*var))))+-2.2713600000000000e+05*(var*var)+2.9125324800000000e+09*(((var*var)*(var*var))*((var*var)*(var*var)))+2.1810380800000000e+10*((((var*var*var)*(var*var*var))*((var*var*var)*(var*var*var)))*(((var*var*var)*(var*var*var))*((var*var*var)*(var*var*var))))+6.7600000000000000e+02" " -1.9813367808000000e+11*((var*(var*var*var)*(var*var*var))*(var*(var*var*var)*(var*var*var)))+-3.9885733888000000e+11*((var*((var*var)*(var*var))*((var*var)*(var*var)))*(var*((var*var)*(var*var))*((var*var)*(var*var))))+-1.8640207872000000e+10*((var*(var*var)*(var*var))*(var*(var*var)*(var*var)))+7.5125686272000000e+10*(((var*var*var)*(var*var*var))*((var*var*var)*(var*var*var)))+-2.6650624000000000e+08*((var*var*var)*(var*var*var))+1.2492480000000000e+07*((var*var)*(var*var))+-1.2039330201600000e+11*((var*(var*(var*var)*(var*var))*(var*(var*var)*(var*var)))*(var*(var*(var*var)*(var*var))*(var*(var*var)*(var*var))))+3.4673393664000000e+11*((((var*var)*(var*var))*((var*var)*(var*var)))*(((var*var)*(var*var))*((var*var)*(var*var))))+2.8969638297600000e+11*(((var*(var*var)*(var*var))*(var*(var*var)*(var*var)))*((var*(var*var)*(var*var))*(var*(var*var)*(var*var))))+-2.2713600000000000e+05*(var*var)+2.9125324800000000e+09*(((var*var)*(var*var))*((var*var)*(var*var)))+2.1810380800000000e+10*((((var*var*var)*(var*var*var))*((var*var*var)*(var*var*var)))*(((var*var*var)*(var*var*var))*((var*var*var)*(var*var*var))))+6.7600000000000000e+02" "676.0+(2.89696382976E11)*x^20+(3.4673393664E11)*x^16-(227136.0)*x^2+(2.91253248E9)*x^8+21810380800*x^24-(3.9885733888E11)*x^18-(1.9813367808E11)*x^14+(7.5125686272E10)*x^12-(1.8640207872E10)*x^10-(2.6650624E8)*x^6+(1.249248E7)*x^4-(1.20393302016E11)*x^22";
    mkSclass "Chebyshev_27_hess" " 1.9656000000000000e+04*var+-2.7179089920000000e+11*(var*(var*(var*(var*var)*(var*var))*(var*(var*var)*(var*var)))*(var*(var*(var*var)*(var*var))*(var*(var*var)*(var*var))))+6.8763097497600000e+11*(var*((var*(var*var)*(var*var))*(var*(var*var)*(var*var)))*((var*(var*var)*(var*var))*(var*(var*var)*(var*var))))+-1.3442457600000000e+09*(var*(var*var*var)*(var*var*var))+9.3194551296000000e+11*(var*(((var*var)*(var*var))*((var*var)*(var*var)))*(((var*var)*(var*var))*((var*var)*(var*var))))+8.3026944000000000e+07*(var*(var*var)*(var*var))+-5.7611177164800000e+11*(var*(var*(var*var*var)*(var*var*var))*(var*(var*var*var)*(var*var*var)))+2.4004657152000000e+11*(var*((var*var*var)*(var*var*var))*((var*var*var)*(var*var*var)))+-2.3587200000000000e+06*(var*var*var)+4.7110422528000000e+10*(var*(((var*var*var)*(var*var*var))*((var*var*var)*(var*var*var)))*(((var*var*var)*(var*var*var))*((var*var*var)*(var*var*var))))+1.2098211840000000e+10*(var*((var*var)*(var*var))*((var*var)*(var*var)))+-6.6870116352000000e+10*(var*(var*(var*var)*(var*var))*(var*(var*var)*(var*var)))+-1.0027951718400000e+12*(var*(var*((var*var)*(var*var))*((var*var)*(var*var)))*(var*((var*var)*(var*var))*((var*var)*(var*var))))" " 1.9656000000000000e+04*var+-2.7179089920000000e+11*(var*(var*(var*(var*var)*(var*var))*(var*(var*var)*(var*var)))*(var*(var*(var*var)*(var*var))*(var*(var*var)*(var*var))))+6.8763097497600000e+11*(var*((var*(var*var)*(var*var))*(var*(var*var)*(var*var)))*((var*(var*var)*(var*var))*(var*(var*var)*(var*var))))+-1.3442457600000000e+09*(var*(var*var*var)*(var*var*var))+9.3194551296000000e+11*(var*(((var*var)*(var*var))*((var*var)*(var*var)))*(((var*var)*(var*var))*((var*var)*(var*var))))+8.3026944000000000e+07*(var*(var*var)*(var*var))+-5.7611177164800000e+11*(var*(var*(var*var*var)*(var*var*var))*(var*(var*var*var)*(var*var*var)))+2.4004657152000000e+11*(var*((var*var*var)*(var*var*var))*((var*var*var)*(var*var*var)))+-2.3587200000000000e+06*(var*var*var)+4.7110422528000000e+10*(var*(((var*var*var)*(var*var*var))*((var*var*var)*(var*var*var)))*(((var*var*var)*(var*var*var))*((var*var*var)*(var*var*var))))+1.2098211840000000e+10*(var*((var*var)*(var*var))*((var*var)*(var*var)))+-6.6870116352000000e+10*(var*(var*(var*var)*(var*var))*(var*(var*var)*(var*var)))+-1.0027951718400000e+12*(var*(var*((var*var)*(var*var))*((var*var)*(var*var)))*(var*((var*var)*(var*var))*((var*var)*(var*var))))" "-(2358720.0)*x^3-(5.76111771648E11)*x^15+(2.4004657152E11)*x^13-(6.6870116352E10)*x^11+47110422528*x^25+(1.209821184E10)*x^9-(1.00279517184E12)*x^19-(2.717908992E11)*x^23+(6.87630974976E11)*x^21+(19656.0)*x-(1.34424576E9)*x^7+(9.3194551296E11)*x^17+(8.3026944E7)*x^5";
    mkSclass "Chebyshev_28_hess" " 7.4681155584000000e+11*((var*(var*var*var)*(var*var*var))*(var*(var*var*var)*(var*var*var)))+2.4698473676800000e+12*((var*((var*var)*(var*var))*((var*var)*(var*var)))*(var*((var*var)*(var*var))*((var*var)*(var*var))))+4.7675916288000000e+10*((var*(var*var)*(var*var))*(var*(var*var)*(var*var)))+-2.3115595776000000e+11*(((var*var*var)*(var*var*var))*((var*var*var)*(var*var*var)))+4.8791142400000000e+08*((var*var*var)*(var*var*var))+-1.9568640000000000e+07*((var*var)*(var*var))+1.6206790656000000e+12*((var*(var*(var*var)*(var*var))*(var*(var*var)*(var*var)))*(var*(var*(var*var)*(var*var))*(var*(var*var)*(var*var))))+1.0146860236800000e+11*((var*((var*var*var)*(var*var*var))*((var*var*var)*(var*var*var)))*(var*((var*var*var)*(var*var*var))*((var*var*var)*(var*var*var))))+-1.6429854228480000e+12*((((var*var)*(var*var))*((var*var)*(var*var)))*(((var*var)*(var*var))*((var*var)*(var*var))))+-2.4958457610240000e+12*(((var*(var*var)*(var*var))*(var*(var*var)*(var*var)))*((var*(var*var)*(var*var))*(var*(var*var)*(var*var))))+3.0576000000000000e+05*(var*var)+-6.2731468800000000e+09*(((var*var)*(var*var))*((var*var)*(var*var)))+-6.1069066240000000e+11*((((var*var*var)*(var*var*var))*((var*var*var)*(var*var*var)))*(((var*var*var)*(var*var*var))*((var*var*var)*(var*var*var))))-7.8400000000000000e+02" " 7.4681155584000000e+11*((var*(var*var*var)*(var*var*var))*(var*(var*var*var)*(var*var*var)))+2.4698473676800000e+12*((var*((var*var)*(var*var))*((var*var)*(var*var)))*(var*((var*var)*(var*var))*((var*var)*(var*var))))+4.7675916288000000e+10*((var*(var*var)*(var*var))*(var*(var*var)*(var*var)))+-2.3115595776000000e+11*(((var*var*var)*(var*var*var))*((var*var*var)*(var*var*var)))+4.8791142400000000e+08*((var*var*var)*(var*var*var))+-1.9568640000000000e+07*((var*var)*(var*var))+1.6206790656000000e+12*((var*(var*(var*var)*(var*var))*(var*(var*var)*(var*var)))*(var*(var*(var*var)*(var*var))*(var*(var*var)*(var*var))))+1.0146860236800000e+11*((var*((var*var*var)*(var*var*var))*((var*var*var)*(var*var*var)))*(var*((var*var*var)*(var*var*var))*((var*var*var)*(var*var*var))))+-1.6429854228480000e+12*((((var*var)*(var*var))*((var*var)*(var*var)))*(((var*var)*(var*var))*((var*var)*(var*var))))+-2.4958457610240000e+12*(((var*(var*var)*(var*var))*(var*(var*var)*(var*var)))*((var*(var*var)*(var*var))*(var*(var*var)*(var*var))))+3.0576000000000000e+05*(var*var)+-6.2731468800000000e+09*(((var*var)*(var*var))*((var*var)*(var*var)))+-6.1069066240000000e+11*((((var*var*var)*(var*var*var))*((var*var*var)*(var*var*var)))*(((var*var*var)*(var*var*var))*((var*var*var)*(var*var*var))))-7.8400000000000000e+02" "-784.0-(2.495845761024E12)*x^20-(1.642985422848E12)*x^16+(305760.0)*x^2-(6.27314688E9)*x^8-(6.106906624E11)*x^24+(2.46984736768E12)*x^18+(7.4681155584E11)*x^14-(2.3115595776E11)*x^12+(4.7675916288E10)*x^10+(4.87911424E8)*x^6+101468602368*x^26-(1.956864E7)*x^4+(1.6206790656E12)*x^22";
    mkSclass "Chebyshev_29_hess" " -2.4360000000000000e+04*var+3.7950062592000000e+12*(var*(var*(var*(var*var)*(var*var))*(var*(var*var)*(var*var)))*(var*(var*(var*var)*(var*var))*(var*(var*var)*(var*var))))+2.1796959027200000e+11*(var*(var*((var*var*var)*(var*var*var))*((var*var*var)*(var*var*var)))*(var*((var*var*var)*(var*var*var))*((var*var*var)*(var*var*var))))+-6.1547216896000000e+12*(var*((var*(var*var)*(var*var))*(var*(var*var)*(var*var)))*((var*(var*var)*(var*var))*(var*(var*var)*(var*var))))+2.5988751360000000e+09*(var*(var*var*var)*(var*var*var))+-4.6045011640320000e+12*(var*(((var*var)*(var*var))*((var*var)*(var*var)))*(((var*var)*(var*var))*((var*var)*(var*var))))+-1.3781913600000000e+08*(var*(var*var)*(var*var))+2.2688846315520000e+12*(var*(var*(var*var*var)*(var*var*var))*(var*(var*var*var)*(var*var*var)))+-7.7348339712000000e+11*(var*((var*var*var)*(var*var*var))*((var*var*var)*(var*var*var)))+3.3779200000000000e+06*(var*var*var)+-1.3662022533120000e+12*(var*(((var*var*var)*(var*var*var))*((var*var*var)*(var*var*var)))*(((var*var*var)*(var*var*var))*((var*var*var)*(var*var*var))))+-2.7432570880000000e+10*(var*((var*var)*(var*var))*((var*var)*(var*var)))+1.7955864576000000e+11*(var*(var*(var*var)*(var*var))*(var*(var*var)*(var*var)))+6.4624577740800000e+12*(var*(var*((var*var)*(var*var))*((var*var)*(var*var)))*(var*((var*var)*(var*var))*((var*var)*(var*var))))" " -2.4360000000000000e+04*var+3.7950062592000000e+12*(var*(var*(var*(var*var)*(var*var))*(var*(var*var)*(var*var)))*(var*(var*(var*var)*(var*var))*(var*(var*var)*(var*var))))+2.1796959027200000e+11*(var*(var*((var*var*var)*(var*var*var))*((var*var*var)*(var*var*var)))*(var*((var*var*var)*(var*var*var))*((var*var*var)*(var*var*var))))+-6.1547216896000000e+12*(var*((var*(var*var)*(var*var))*(var*(var*var)*(var*var)))*((var*(var*var)*(var*var))*(var*(var*var)*(var*var))))+2.5988751360000000e+09*(var*(var*var*var)*(var*var*var))+-4.6045011640320000e+12*(var*(((var*var)*(var*var))*((var*var)*(var*var)))*(((var*var)*(var*var))*((var*var)*(var*var))))+-1.3781913600000000e+08*(var*(var*var)*(var*var))+2.2688846315520000e+12*(var*(var*(var*var*var)*(var*var*var))*(var*(var*var*var)*(var*var*var)))+-7.7348339712000000e+11*(var*((var*var*var)*(var*var*var))*((var*var*var)*(var*var*var)))+3.3779200000000000e+06*(var*var*var)+-1.3662022533120000e+12*(var*(((var*var*var)*(var*var*var))*((var*var*var)*(var*var*var)))*(((var*var*var)*(var*var*var))*((var*var*var)*(var*var*var))))+-2.7432570880000000e+10*(var*((var*var)*(var*var))*((var*var)*(var*var)))+1.7955864576000000e+11*(var*(var*(var*var)*(var*var))*(var*(var*var)*(var*var)))+6.4624577740800000e+12*(var*(var*((var*var)*(var*var))*((var*var)*(var*var)))*(var*((var*var)*(var*var))*((var*var)*(var*var))))" "(3377920.0)*x^3+(2.268884631552E12)*x^15-(7.7348339712E11)*x^13+(1.7955864576E11)*x^11-(1.366202253312E12)*x^25-(2.743257088E10)*x^9+(6.46245777408E12)*x^19+217969590272*x^27+(3.7950062592E12)*x^23-(6.1547216896E12)*x^21-(24360.0)*x+(2.598875136E9)*x^7-(4.604501164032E12)*x^17-(1.37819136E8)*x^5" ].

(** Chebyshev.hh 2672-2851: the classes selected by switch(term), cases 0 to 29: value, gradient, Hessian. *)
Definition chebyshev_cases : list (string * string * string) :=
  [ ("Chebyshev_0", "Chebyshev_0_grad", "Chebyshev_0_hess");
    ("Chebyshev_1", "Chebyshev_1_grad", "Chebyshev_1_hess");
    ("Chebyshev_2", "Chebyshev_2_grad", "Chebyshev_2_hess");
    ("Chebyshev_3", "Chebyshev_3_grad", "Chebyshev_3_hess");
    ("Chebyshev_4", "Chebyshev_4_grad", "Chebyshev_4_hess");
    ("Chebyshev_5", "Chebyshev_5_grad", "Chebyshev_5_hess");
    ("Chebyshev_6", "Chebyshev_6_grad", "Chebyshev_6_hess");
    ("Chebyshev_7", "Chebyshev_7_grad", "Chebyshev_7_hess");
    ("Chebyshev_8", "Chebyshev_8_grad", "Chebyshev_8_hess");
    ("Chebyshev_9", "Chebyshev_9_grad", "Chebyshev_9_hess");
    ("Chebyshev_10", "Chebyshev_10_grad", "Chebyshev_10_hess");
    ("Chebyshev_11", "Chebyshev_11_grad", "Chebyshev_11_hess");
    ("Chebyshev_12", "Chebyshev_12_grad", "Chebyshev_12_hess");
    ("Chebyshev_13", "Chebyshev_13_grad", "Chebyshev_13_hess");
    ("Chebyshev_14", "Chebyshev_14_grad", "Chebyshev_14_hess");
    ("Chebyshev_15", "Chebyshev_15_grad", "Chebyshev_15_hess");
    ("Chebyshev_16", "Chebyshev_16_grad", "Chebyshev_16_hess");
    ("Chebyshev_17", "Chebyshev_17_grad", "Chebyshev_17_hess");
    ("Chebyshev_18", "Chebyshev_18_grad", "Chebyshev_18_hess");
    ("Chebyshev_19", "Chebyshev_19_grad", "Chebyshev_19_hess");
    ("Chebyshev_20", "Chebyshev_20_grad", "Chebyshev_20_hess");
    ("Chebyshev_21", "Chebyshev_21_grad", "Chebyshev_21_hess");
    ("Chebyshev_22", "Chebyshev_22_grad", "Chebyshev_22_hess");
    ("Chebyshev_23", "Chebyshev_23_grad", "Chebyshev_23_hess");
    ("Chebyshev_24", "Chebyshev_24_grad", "Chebyshev_24_hess");
    ("Chebyshev_25", "Chebyshev_25_grad", "Chebyshev_25_hess");
    ("Chebyshev_26", "Chebyshev_26_grad", "Chebyshev_26_hess");
    ("Chebyshev_27", "Chebyshev_27_grad", "Chebyshev_27_hess");
    ("Chebyshev_28", "Chebyshev_28_grad", "Chebyshev_28_hess");
    ("Chebyshev_29", "Chebyshev_29_grad", "Chebyshev_29_hess") ].

(** Quadratic.hh 11-104. *)
Definition quadratic_classes : list sclass :=
  [ mkSclass "Quadratic_f" " var[0]+(var[0]*var[0])+1.0" " var[0]+(var[0]*var[0])+1.0" "1+x+x^2";
    mkSclass "Quadratic_grad_0" " 2.0*var[0]+1.0" " 2.0*var[0]+1.0" "1+2*x";
    mkSclass "Quadratic_hess_0_0" "2.0" "2.0" "2" ].

(** MyFunc.hh 11-248. *)
Definition myfunc_classes : list sclass :=
  [ mkSclass "MyFunc_f" " (var[0]*var[0])*var[1]+(var[0]*var[0]*var[0])+var[0]*(var[1]*var[1])+(var[1]*var[1]*var[1])" " (var[0]*var[0])*var[1]+(var[0]*var[0]*var[0])+var[0]*(var[1]*var[1])+(var[1]*var[1]*var[1])" "x*y^2+y^3+x^2*y+x^3";
    mkSclass "MyFunc_grad_0" " 2.0*var[1]*var[0]+3.0*(var[0]*var[0])+(var[1]*var[1])" " 2.0*var[1]*var[0]+3.0*(var[0]*var[0])+(var[1]*var[1])" "y^2+2*x*y+3*x^2";
    mkSclass "MyFunc_grad_1" " 3.0*(var[1]*var[1])+2.0*var[1]*var[0]+(var[0]*var[0])" " 3.0*(var[1]*var[1])+2.0*var[1]*var[0]+(var[0]*var[0])" "x^2+3*y^2+2*x*y";
    mkSclass "MyFunc_hess_0_0" " 6.0*var[0]+2.0*var[1]" " 6.0*var[0]+2.0*var[1]" "2*y+6*x";
    mkSclass "MyFunc_hess_0_1" " 2.0*var[0]+2.0*var[1]" " 2.0*var[0]+2.0*var[1]" "2*y+2*x";
    mkSclass "MyFunc_hess_1_0" " 2.0*var[1]+2.0*var[0]" " 2.0*var[1]+2.0*var[0]" "2*x+2*y";
    mkSclass "MyFunc_hess_1_1" " 2.0*var[0]+6.0*var[1]" " 2.0*var[0]+6.0*var[1]" "6*y+2*x" ].

(** MyPieceWiseFunc.hh 12-1156: the functions of the three pieces. *)
Definition mypiecewisefunc_classes : list sclass :=
  [ mkSclass "MyPieceWiseFunc_piece0_f" "var[0]" "var[0]" "x";
    mkSclass "MyPieceWiseFunc_piece0_grad_0" "1.0" "1.0" "1";
    mkSclass "MyPieceWiseFunc_piece0_grad_1" "0.0" "0.0" "0";
    mkSclass "MyPieceWiseFunc_piece0_hess_0_0" "0.0" "0.0" "0";
    mkSclass "MyPieceWiseFunc_piece0_hess_0_1" "0.0" "0.0" "0";
    mkSclass "MyPieceWiseFunc_piece0_hess_1_0" "0.0" "0.0" "0";
    mkSclass "MyPieceWiseFunc_piece0_hess_1_1" "0.0" "0.0" "0";
    mkSclass "MyPieceWiseFunc_piece1_f" " (var[0]*var[0])+(var[1]*var[1])" " (var[0]*var[0])+(var[1]*var[1])" "y^2+x^2";
    mkSclass "MyPieceWiseFunc_piece1_grad_0" "2.0*var[0]" "2.0*var[0]" "2*x";
    mkSclass "MyPieceWiseFunc_piece1_grad_1" "2.0*var[1]" "2.0*var[1]" "2*y";
    mkSclass "MyPieceWiseFunc_piece1_hess_0_0" "2.0" "2.0" "2";
    mkSclass "MyPieceWiseFunc_piece1_hess_0_1" "0.0" "0.0" "0";
    mkSclass "MyPieceWiseFunc_piece1_hess_1_0" "0.0" "0.0" "0";
    mkSclass "MyPieceWiseFunc_piece1_hess_1_1" "2.0" "2.0" "2";
    mkSclass "MyPieceWiseFunc_piece2_f" " pow( (var[1]*var[1])+(var[0]*var[0]),(1.0/2.0))-2.5000000000000000e-01" " pow( (var[1]*var[1])+(var[0]*var[0]),(1.0/2.0))-2.5000000000000000e-01" "-0.25+sqrt(x^2+y^2)";
    mkSclass "MyPieceWiseFunc_piece2_grad_0" "var[0]*pow( (var[1]*var[1])+(var[0]*var[0]),-(1.0/2.0))" "var[0]*pow( (var[1]*var[1])+(var[0]*var[0]),-(1.0/2.0))" "x*(x^2+y^2)^(-1/2)";
    mkSclass "MyPieceWiseFunc_piece2_grad_1" "var[1]*pow( (var[0]*var[0])+(var[1]*var[1]),-(1.0/2.0))" "var[1]*pow( (var[0]*var[0])+(var[1]*var[1]),-(1.0/2.0))" "(y^2+x^2)^(-1/2)*y";
    mkSclass "MyPieceWiseFunc_piece2_hess_0_0" " pow( (var[1]*var[1])+(var[0]*var[0]),-(1.0/2.0))-pow( (var[1]*var[1])+(var[0]*var[0]),-(3.0/2.0))*(var[0]*var[0])" " pow( (var[1]*var[1])+(var[0]*var[0]),-(1.0/2.0))-pow( (var[1]*var[1])+(var[0]*var[0]),-(3.0/2.0))*(var[0]*var[0])" "-(x^2+y^2)^(-3/2)*x^2+(x^2+y^2)^(-1/2)";
    mkSclass "MyPieceWiseFunc_piece2_hess_0_1" "-var[0]*var[1]*pow( (var[0]*var[0])+(var[1]*var[1]),-(3.0/2.0))" "-var[0]*var[1]*pow( (var[0]*var[0])+(var[1]*var[1]),-(3.0/2.0))" "-(y^2+x^2)^(-3/2)*x*y";
    mkSclass "MyPieceWiseFunc_piece2_hess_1_0" "-var[0]*var[1]*pow( (var[0]*var[0])+(var[1]*var[1]),-(3.0/2.0))" "-var[0]*var[1]*pow( (var[0]*var[0])+(var[1]*var[1]),-(3.0/2.0))" "-x*y*(x^2+y^2)^(-3/2)";
    mkSclass "MyPieceWiseFunc_piece2_hess_1_1" " pow( (var[0]*var[0])+(var[1]*var[1]),-(1.0/2.0))-(var[1]*var[1])*pow( (var[0]*var[0])+(var[1]*var[1]),-(3.0/2.0))" " pow( (var[0]*var[0])+(var[1]*var[1]),-(1.0/2.0))-(var[1]*var[1])*pow( (var[0]*var[0])+(var[1]*var[1]),-(3.0/2.0))" "-y^2*(x^2+y^2)^(-3/2)+(x^2+y^2)^(-1/2)" ].

(** A text as an expression; a text outside the modelled subset has no meaning here. *)
Definition code (c : sclass) : option cexpr := parse cpp (txt (sc_eval c)).

(** eval(var) of a class: [NoFuel] (no claim) if its text is outside the modelled subset. *)
Definition class_eval (O : NumOps) (pw : num O -> num O -> num O) (c : sclass) (v : list (num O)) : outcome (num O) :=
  match code c with Some e => ceval O pw v e | None => NoFuel end.

(** The class of a given name. *)
Definition class_named (l : list sclass) (n : string) : option sclass := find (fun c => String.eqb (sc_name c) n) l.
Definition named_eval (O : NumOps) (pw : num O -> num O -> num O) (l : list sclass) (n : string) (v : list (num O)) : outcome (num O) :=
  match class_named l n with Some c => class_eval O pw c v | None => NoFuel end.

(** Monomial.hh 2656-2855 and Chebyshev.hh 2656-2855, basis_function(term), together with eval, eval_grad, eval_hess (2870-2883): the three
    functions of a term. A term beyond the switch does not occur: the sets have at most 30 terms. *)
Definition term_fun (O : NumOps) (pw : num O -> num O -> num O) (l : list sclass) (cases : list (string * string * string))
    (sel : string * string * string -> string) (term : Z) (x : num O) : outcome (num O) :=
  let* c := vget cases term in named_eval O pw l (sel c) [x].

(** Monomial.hh 2628-2631 and Chebyshev.hh 2628-2631, with construct (2885-2898): the constructor; max_size 2857-2860. *)
Definition sample_set (O : NumOps) (pw : num O -> num O -> num O) (d : num O) (name : string) (l : list sclass) (cases : list (string * string * string)) (N : Z) :
    outcome (bset (num O) (num O)) :=
  bs_make d name (Some 30) (term_fun O pw l cases (fun c => fst (fst c))) (term_fun O pw l cases (fun c => snd (fst c))) (term_fun O pw l cases snd) N.
Definition monomial_set (O : NumOps) pw d := sample_set O pw d "Monomial" monomial_classes monomial_cases.
Definition chebyshev_set (O : NumOps) pw d := sample_set O pw d "Chebyshev" chebyshev_classes chebyshev_cases.

(** A new object of a class derived from PSimpleBase; _val is indeterminate. *)
Definition new_simple (O : NumOps) (pw : num O -> num O -> num O) (l : list sclass) (n : string) : simple (list (num O)) (num O) :=
  mkSimple n (named_eval O pw l n) None.

(** Quadratic.hh 233-253: construct. *)
Definition quadratic (O : NumOps) (pw : num O -> num O -> num O) : fobj (list (num O)) (num O) :=
  let s := new_simple O pw quadratic_classes in
  mkFobj (s "Quadratic_f") [s "Quadratic_grad_0"] [[s "Quadratic_hess_0_0"]].

(** MyFunc.hh 394-421: construct. *)
Definition myfunc (O : NumOps) (pw : num O -> num O -> num O) : fobj (list (num O)) (num O) :=
  let s := new_simple O pw myfunc_classes in
  mkFobj (s "MyFunc_f") [s "MyFunc_grad_0"; s "MyFunc_grad_1"]
    [[s "MyFunc_hess_0_0"; s "MyFunc_hess_0_1"]; [s "MyFunc_hess_1_0"; s "MyFunc_hess_1_1"]].

(** Classes derived from PSimpleBase<VarContainer, bool>. *)
Record scondition : Type := mkScondition { sd_name : string; sd_eval : string }.
Definition cond_eval (O : NumOps) (pw : num O -> num O -> num O) (c : scondition) (v : list (num O)) : outcome bool :=
  match parse_cond cpp (txt (sd_eval c)) with Some e => ccond_eval O pw v e | None => NoFuel end.
Definition new_cond (O : NumOps) (pw : num O -> num O -> num O) (c : scondition) : simple (list (num O)) bool :=
  mkSimple (sd_name c) (cond_eval O pw c) None.

(** MyPieceWiseFunc.hh 411-432, 847-868, 883-904, 1319-1340, 1355-1376. *)
Definition piece0_cond0 := mkScondition "MyPieceWiseFunc_piece0_cond0" "var[0] < 0.0".
Definition piece1_cond0 := mkScondition "MyPieceWiseFunc_piece1_cond0" " (var[0]*var[0])+(var[1]*var[1]) < 2.5000000000000000e-01".
Definition piece1_cond1 := mkScondition "MyPieceWiseFunc_piece1_cond1" "var[0] >= 0.0".
Definition piece2_cond0 := mkScondition "MyPieceWiseFunc_piece2_cond0" " (var[0]*var[0])+(var[1]*var[1]) >= 2.5000000000000000e-01".
Definition piece2_cond1 := mkScondition "MyPieceWiseFunc_piece2_cond1" "var[0] >= 0.0".

(** MyPieceWiseFunc.hh 382-405, 818-841, 1290-1313: construct of the three piece classes. *)
Definition mypiece (O : NumOps) (pw : num O -> num O -> num O) (n : string) : fobj (list (num O)) (num O) :=
  let s suffix := new_simple O pw mypiecewisefunc_classes ("MyPieceWiseFunc_" ++ n ++ suffix) in
  mkFobj (s "_f") [s "_grad_0"; s "_grad_1"] [[s "_hess_0_0"; s "_hess_0_1"]; [s "_hess_1_0"; s "_hess_1_1"]].

(** MyPieceWiseFunc.hh 1395-1424: the constructor. _curr_piece is not initialised. *)
Definition mypiecewise (O : NumOps) (power : num O -> num O -> num O) : pw (list (num O)) (fobj (list (num O)) (num O)) :=
  let c := new_cond O power in
  mkPw None
    [ mkPiece (mypiece O power "piece0") [c piece0_cond0];
      mkPiece (mypiece O power "piece1") [c piece1_cond0; c piece1_cond1];
      mkPiece (mypiece O power "piece2") [c piece2_cond0; c piece2_cond1] ].
