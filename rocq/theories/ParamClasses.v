(** Tables of the nine parameter classes, transcribed from the sources.
    Decimal literals are the exact decimals.  [ct_from_ordered] and [ct_fix_resonances] are [None] where
    the class has no such method. *)
From Coq Require Import Reals String List.
From Verif Require Import PyBase Params.
Import ListNotations.
Open Scope string_scope.
Open Scope list_scope.
Open Scope R_scope.

(** [KaonParameters]: /repo/model_parameters/KaonParameters.py, __init__ l.10-54, _setup_data l.56-123, handpicked bounds
    l.148-184, maximal bounds l.186-226, get_ordered_values l.228-297, from_ordered_values l.300-343, fix_resonances l.345-352. *)
Definition table_Kaon : ClassTable := {|
  ct_formals :=
     [ "t_0_isoscalar"; "t_0_isovector"; "t_in_isoscalar"; "t_in_isovector";
       "a_omega"; "mass_omega"; "decay_rate_omega"; "a_omega_prime";
       "mass_omega_prime"; "decay_rate_omega_prime"; "a_omega_double_prime"; "mass_omega_double_prime";
       "decay_rate_omega_double_prime"; "a_phi"; "mass_phi"; "decay_rate_phi";
       "a_phi_prime"; "mass_phi_prime"; "decay_rate_phi_prime"; "mass_phi_double_prime";
       "decay_rate_phi_double_prime"; "a_rho"; "mass_rho"; "decay_rate_rho";
       "a_rho_prime"; "mass_rho_prime"; "decay_rate_rho_prime"; "a_rho_double_prime";
       "mass_rho_double_prime"; "decay_rate_rho_double_prime"; "mass_rho_triple_prime"; "decay_rate_rho_triple_prime" ];
  ct_super_args :=
     [ "t_0_isoscalar"; "t_0_isovector"; "t_in_isoscalar"; "t_in_isovector";
       "a_omega"; "mass_omega"; "decay_rate_omega"; "a_omega_prime";
       "mass_omega_prime"; "decay_rate_omega_prime"; "a_omega_double_prime"; "mass_omega_double_prime";
       "decay_rate_omega_double_prime"; "a_phi"; "mass_phi"; "decay_rate_phi";
       "a_phi_prime"; "mass_phi_prime"; "decay_rate_phi_prime"; "mass_phi_double_prime";
       "decay_rate_phi_double_prime"; "a_rho"; "mass_rho"; "decay_rate_rho";
       "a_rho_prime"; "mass_rho_prime"; "decay_rate_rho_prime"; "a_rho_double_prime";
       "mass_rho_double_prime"; "decay_rate_rho_double_prime"; "mass_rho_triple_prime"; "decay_rate_rho_triple_prime" ];
  ct_always_fixed :=
     [ "t_0_isoscalar"; "t_0_isovector" ];
  ct_setup_formals :=
     [ "t_0_isoscalar"; "t_0_isovector"; "t_in_isoscalar"; "t_in_isovector";
       "a_omega"; "mass_omega"; "decay_rate_omega"; "a_omega_prime";
       "mass_omega_prime"; "decay_rate_omega_prime"; "a_omega_double_prime"; "mass_omega_double_prime";
       "decay_rate_omega_double_prime"; "a_phi"; "mass_phi"; "decay_rate_phi";
       "a_phi_prime"; "mass_phi_prime"; "decay_rate_phi_prime"; "mass_phi_double_prime";
       "decay_rate_phi_double_prime"; "a_rho"; "mass_rho"; "decay_rate_rho";
       "a_rho_prime"; "mass_rho_prime"; "decay_rate_rho_prime"; "a_rho_double_prime";
       "mass_rho_double_prime"; "decay_rate_rho_double_prime"; "mass_rho_triple_prime"; "decay_rate_rho_triple_prime" ];
  ct_setup :=
     [ ("t_0_isoscalar", "t_0_isoscalar", true);
       ("t_0_isovector", "t_0_isovector", true);
       ("t_in_isoscalar", "t_in_isoscalar", false);
       ("t_in_isovector", "t_in_isovector", false);
       ("a_omega", "a_omega", false);
       ("mass_omega", "mass_omega", false);
       ("decay_rate_omega", "decay_rate_omega", false);
       ("a_omega_prime", "a_omega_prime", false);
       ("mass_omega_prime", "mass_omega_prime", false);
       ("decay_rate_omega_prime", "decay_rate_omega_prime", false);
       ("a_omega_double_prime", "a_omega_double_prime", false);
       ("mass_omega_double_prime", "mass_omega_double_prime", false);
       ("decay_rate_omega_double_prime", "decay_rate_omega_double_prime", false);
       ("a_phi", "a_phi", false);
       ("mass_phi", "mass_phi", false);
       ("decay_rate_phi", "decay_rate_phi", false);
       ("a_phi_prime", "a_phi_prime", false);
       ("mass_phi_prime", "mass_phi_prime", false);
       ("decay_rate_phi_prime", "decay_rate_phi_prime", false);
       ("mass_phi_double_prime", "mass_phi_double_prime", false);
       ("decay_rate_phi_double_prime", "decay_rate_phi_double_prime", false);
       ("a_rho", "a_rho", false);
       ("mass_rho", "mass_rho", false);
       ("decay_rate_rho", "decay_rate_rho", false);
       ("a_rho_prime", "a_rho_prime", false);
       ("mass_rho_prime", "mass_rho_prime", false);
       ("decay_rate_rho_prime", "decay_rate_rho_prime", false);
       ("a_rho_double_prime", "a_rho_double_prime", false);
       ("mass_rho_double_prime", "mass_rho_double_prime", false);
       ("decay_rate_rho_double_prime", "decay_rate_rho_double_prime", false);
       ("mass_rho_triple_prime", "mass_rho_triple_prime", false);
       ("decay_rate_rho_triple_prime", "decay_rate_rho_triple_prime", false) ];
  ct_handpicked :=
     [ ("t_in_isoscalar", (BValue "t_0_isoscalar", BPosInf));
       ("t_in_isovector", (BValue "t_0_isovector", BPosInf));
       ("a_omega", (BNegInf, BPosInf));
       ("mass_omega", (BNum (31/40), BNum (79/100)));
       ("decay_rate_omega", (BNum (17/2000), BNum (89/10000)));
       ("a_omega_prime", (BNegInf, BPosInf));
       ("mass_omega_prime", (BNum (137/100), BNum (29/20)));
       ("decay_rate_omega_prime", (BNum (1/4), BNum (33/100)));
       ("a_omega_double_prime", (BNegInf, BPosInf));
       ("mass_omega_double_prime", (BNum (333/200), BNum (67/40)));
       ("decay_rate_omega_double_prime", (BNum (3/10), BNum (33/100)));
       ("a_phi", (BNegInf, BPosInf));
       ("mass_phi", (BNum 1, BNum (21/20)));
       ("decay_rate_phi", (BNum (1/250), BNum (9/2000)));
       ("a_phi_prime", (BNegInf, BPosInf));
       ("mass_phi_prime", (BNum (67/40), BNum (337/200)));
       ("decay_rate_phi_prime", (BNum (1/10), BNum (1/5)));
       ("mass_phi_double_prime", (BNum (21/10), BNum (11/5)));
       ("decay_rate_phi_double_prime", (BNum (1/20), BNum (1/5)));
       ("a_rho", (BNegInf, BPosInf));
       ("mass_rho", (BNum (3/4), BNum (39/50)));
       ("decay_rate_rho", (BNum (7/50), BNum (3/20)));
       ("a_rho_prime", (BNegInf, BPosInf));
       ("mass_rho_prime", (BNum (32/25), BNum (37/25)));
       ("decay_rate_rho_prime", (BNum (3/20), BNum (11/20)));
       ("a_rho_double_prime", (BNegInf, BPosInf));
       ("mass_rho_double_prime", (BNum (42/25), BNum (87/50)));
       ("decay_rate_rho_double_prime", (BNum (1/10), BNum (3/5)));
       ("mass_rho_triple_prime", (BNum 2, BNum (12/5)));
       ("decay_rate_rho_triple_prime", (BNum (1/10), BNum (3/5))) ];
  ct_maximal_locals :=
     [ ("lower_mass_bound_isoscalar", BSqrt "t_0_isoscalar");
       ("lower_mass_bound_isovector", BSqrt "t_0_isovector") ];
  ct_maximal :=
     [ ("t_in_isoscalar", (BValue "t_0_isoscalar", BPosInf));
       ("t_in_isovector", (BValue "t_0_isovector", BPosInf));
       ("a_omega", (BNegInf, BPosInf));
       ("mass_omega", (BLoc "lower_mass_bound_isoscalar", BPosInf));
       ("decay_rate_omega", (BNum 0, BPosInf));
       ("a_omega_prime", (BNegInf, BPosInf));
       ("mass_omega_prime", (BLoc "lower_mass_bound_isoscalar", BPosInf));
       ("decay_rate_omega_prime", (BNum 0, BPosInf));
       ("a_omega_double_prime", (BNegInf, BPosInf));
       ("mass_omega_double_prime", (BLoc "lower_mass_bound_isoscalar", BPosInf));
       ("decay_rate_omega_double_prime", (BNum 0, BPosInf));
       ("a_phi", (BNegInf, BPosInf));
       ("mass_phi", (BLoc "lower_mass_bound_isoscalar", BPosInf));
       ("decay_rate_phi", (BNum 0, BPosInf));
       ("a_phi_prime", (BNegInf, BPosInf));
       ("mass_phi_prime", (BLoc "lower_mass_bound_isoscalar", BPosInf));
       ("decay_rate_phi_prime", (BNum 0, BPosInf));
       ("mass_phi_double_prime", (BLoc "lower_mass_bound_isoscalar", BPosInf));
       ("decay_rate_phi_double_prime", (BNum 0, BPosInf));
       ("a_rho", (BNegInf, BPosInf));
       ("mass_rho", (BLoc "lower_mass_bound_isovector", BPosInf));
       ("decay_rate_rho", (BNum 0, BPosInf));
       ("a_rho_prime", (BNegInf, BPosInf));
       ("mass_rho_prime", (BLoc "lower_mass_bound_isovector", BPosInf));
       ("decay_rate_rho_prime", (BNum 0, BPosInf));
       ("a_rho_double_prime", (BNegInf, BPosInf));
       ("mass_rho_double_prime", (BLoc "lower_mass_bound_isovector", BPosInf));
       ("decay_rate_rho_double_prime", (BNum 0, BPosInf));
       ("mass_rho_triple_prime", (BLoc "lower_mass_bound_isovector", BPosInf));
       ("decay_rate_rho_triple_prime", (BNum 0, BPosInf)) ];
  ct_ordered :=
     [ "t_in_isoscalar"; "t_in_isovector"; "mass_rho"; "mass_rho_prime";
       "mass_rho_double_prime"; "mass_rho_triple_prime"; "decay_rate_rho"; "decay_rate_rho_prime";
       "decay_rate_rho_double_prime"; "decay_rate_rho_triple_prime"; "a_rho"; "a_rho_prime";
       "a_rho_double_prime"; "mass_omega"; "mass_phi"; "mass_omega_prime";
       "mass_omega_double_prime"; "mass_phi_prime"; "mass_phi_double_prime"; "decay_rate_omega";
       "decay_rate_phi"; "decay_rate_omega_prime"; "decay_rate_omega_double_prime"; "decay_rate_phi_prime";
       "decay_rate_phi_double_prime"; "a_omega"; "a_phi"; "a_omega_prime";
       "a_omega_double_prime"; "a_phi_prime" ];
  ct_from_ordered := Some {|
       fo_formals := [ "t_0_isoscalar"; "t_0_isovector" ];
       fo_names :=
         [ "t_in_isoscalar"; "t_in_isovector"; "mass_rho"; "mass_rho_prime";
           "mass_rho_double_prime"; "mass_rho_triple_prime"; "decay_rate_rho"; "decay_rate_rho_prime";
           "decay_rate_rho_double_prime"; "decay_rate_rho_triple_prime"; "a_rho"; "a_rho_prime";
           "a_rho_double_prime"; "mass_omega"; "mass_phi"; "mass_omega_prime";
           "mass_omega_double_prime"; "mass_phi_prime"; "mass_phi_double_prime"; "decay_rate_omega";
           "decay_rate_phi"; "decay_rate_omega_prime"; "decay_rate_omega_double_prime"; "decay_rate_phi_prime";
           "decay_rate_phi_double_prime"; "a_omega"; "a_phi"; "a_omega_prime";
           "a_omega_double_prime"; "a_phi_prime" ];
       fo_constants :=
         [ ("t_0_isoscalar", "t_0_isoscalar", true);
           ("t_0_isovector", "t_0_isovector", true) ] |};
  ct_fix_resonances := Some
     [ "mass_rho"; "mass_rho_prime"; "mass_rho_double_prime"; "mass_rho_triple_prime";
       "decay_rate_rho"; "decay_rate_rho_prime"; "decay_rate_rho_double_prime"; "decay_rate_rho_triple_prime";
       "mass_omega"; "mass_phi"; "mass_omega_prime"; "mass_omega_double_prime";
       "mass_phi_prime"; "mass_phi_double_prime"; "decay_rate_omega"; "decay_rate_phi";
       "decay_rate_omega_prime"; "decay_rate_omega_double_prime"; "decay_rate_phi_prime"; "decay_rate_phi_double_prime" ]
|}.

(** [KaonParametersSimplified]: /repo/model_parameters/KaonParametersSimplified.py, __init__ l.10-48, _setup_data l.50-105, handpicked bounds
    l.130-160, maximal bounds l.162-196, get_ordered_values l.198-255, from_ordered_values l.258-295, fix_resonances l.297-304. *)
Definition table_KaonSimplified : ClassTable := {|
  ct_formals :=
     [ "t_0_isoscalar"; "t_0_isovector"; "t_in_isoscalar"; "t_in_isovector";
       "a_omega_prime"; "mass_omega_prime"; "decay_rate_omega_prime"; "a_omega_double_prime";
       "mass_omega_double_prime"; "decay_rate_omega_double_prime"; "a_phi"; "mass_phi";
       "decay_rate_phi"; "a_phi_prime"; "mass_phi_prime"; "decay_rate_phi_prime";
       "mass_phi_double_prime"; "decay_rate_phi_double_prime"; "a_rho_prime"; "mass_rho_prime";
       "decay_rate_rho_prime"; "a_rho_double_prime"; "mass_rho_double_prime"; "decay_rate_rho_double_prime";
       "mass_rho_triple_prime"; "decay_rate_rho_triple_prime" ];
  ct_super_args :=
     [ "t_0_isoscalar"; "t_0_isovector"; "t_in_isoscalar"; "t_in_isovector";
       "a_omega_prime"; "mass_omega_prime"; "decay_rate_omega_prime"; "a_omega_double_prime";
       "mass_omega_double_prime"; "decay_rate_omega_double_prime"; "a_phi"; "mass_phi";
       "decay_rate_phi"; "a_phi_prime"; "mass_phi_prime"; "decay_rate_phi_prime";
       "mass_phi_double_prime"; "decay_rate_phi_double_prime"; "a_rho_prime"; "mass_rho_prime";
       "decay_rate_rho_prime"; "a_rho_double_prime"; "mass_rho_double_prime"; "decay_rate_rho_double_prime";
       "mass_rho_triple_prime"; "decay_rate_rho_triple_prime" ];
  ct_always_fixed :=
     [ "t_0_isoscalar"; "t_0_isovector" ];
  ct_setup_formals :=
     [ "t_0_isoscalar"; "t_0_isovector"; "t_in_isoscalar"; "t_in_isovector";
       "a_omega_prime"; "mass_omega_prime"; "decay_rate_omega_prime"; "a_omega_double_prime";
       "mass_omega_double_prime"; "decay_rate_omega_double_prime"; "a_phi"; "mass_phi";
       "decay_rate_phi"; "a_phi_prime"; "mass_phi_prime"; "decay_rate_phi_prime";
       "mass_phi_double_prime"; "decay_rate_phi_double_prime"; "a_rho_prime"; "mass_rho_prime";
       "decay_rate_rho_prime"; "a_rho_double_prime"; "mass_rho_double_prime"; "decay_rate_rho_double_prime";
       "mass_rho_triple_prime"; "decay_rate_rho_triple_prime" ];
  ct_setup :=
     [ ("t_0_isoscalar", "t_0_isoscalar", true);
       ("t_0_isovector", "t_0_isovector", true);
       ("t_in_isoscalar", "t_in_isoscalar", false);
       ("t_in_isovector", "t_in_isovector", false);
       ("a_omega_prime", "a_omega_prime", false);
       ("mass_omega_prime", "mass_omega_prime", false);
       ("decay_rate_omega_prime", "decay_rate_omega_prime", false);
       ("a_omega_double_prime", "a_omega_double_prime", false);
       ("mass_omega_double_prime", "mass_omega_double_prime", false);
       ("decay_rate_omega_double_prime", "decay_rate_omega_double_prime", false);
       ("a_phi", "a_phi", false);
       ("mass_phi", "mass_phi", false);
       ("decay_rate_phi", "decay_rate_phi", false);
       ("a_phi_prime", "a_phi_prime", false);
       ("mass_phi_prime", "mass_phi_prime", false);
       ("decay_rate_phi_prime", "decay_rate_phi_prime", false);
       ("mass_phi_double_prime", "mass_phi_double_prime", false);
       ("decay_rate_phi_double_prime", "decay_rate_phi_double_prime", false);
       ("a_rho_prime", "a_rho_prime", false);
       ("mass_rho_prime", "mass_rho_prime", false);
       ("decay_rate_rho_prime", "decay_rate_rho_prime", false);
       ("a_rho_double_prime", "a_rho_double_prime", false);
       ("mass_rho_double_prime", "mass_rho_double_prime", false);
       ("decay_rate_rho_double_prime", "decay_rate_rho_double_prime", false);
       ("mass_rho_triple_prime", "mass_rho_triple_prime", false);
       ("decay_rate_rho_triple_prime", "decay_rate_rho_triple_prime", false) ];
  ct_handpicked :=
     [ ("t_in_isoscalar", (BValue "t_0_isoscalar", BPosInf));
       ("t_in_isovector", (BValue "t_0_isovector", BPosInf));
       ("a_omega_prime", (BNegInf, BPosInf));
       ("mass_omega_prime", (BNum (137/100), BNum (29/20)));
       ("decay_rate_omega_prime", (BNum (1/4), BNum (33/100)));
       ("a_omega_double_prime", (BNegInf, BPosInf));
       ("mass_omega_double_prime", (BNum (333/200), BNum (67/40)));
       ("decay_rate_omega_double_prime", (BNum (3/10), BNum (33/100)));
       ("a_phi", (BNegInf, BPosInf));
       ("mass_phi", (BNum 1, BNum (21/20)));
       ("decay_rate_phi", (BNum (1/250), BNum (9/2000)));
       ("a_phi_prime", (BNegInf, BPosInf));
       ("mass_phi_prime", (BNum (67/40), BNum (337/200)));
       ("decay_rate_phi_prime", (BNum (1/10), BNum (1/5)));
       ("mass_phi_double_prime", (BNum (21/10), BNum (11/5)));
       ("decay_rate_phi_double_prime", (BNum (1/20), BNum (1/5)));
       ("a_rho_prime", (BNegInf, BPosInf));
       ("mass_rho_prime", (BNum (32/25), BNum (37/25)));
       ("decay_rate_rho_prime", (BNum (3/20), BNum (11/20)));
       ("a_rho_double_prime", (BNegInf, BPosInf));
       ("mass_rho_double_prime", (BNum (42/25), BNum (87/50)));
       ("decay_rate_rho_double_prime", (BNum (1/10), BNum (3/5)));
       ("mass_rho_triple_prime", (BNum 2, BNum (12/5)));
       ("decay_rate_rho_triple_prime", (BNum (1/10), BNum (3/5))) ];
  ct_maximal_locals :=
     [ ("lower_mass_bound_isoscalar", BSqrt "t_0_isoscalar");
       ("lower_mass_bound_isovector", BSqrt "t_0_isovector") ];
  ct_maximal :=
     [ ("t_in_isoscalar", (BValue "t_0_isoscalar", BPosInf));
       ("t_in_isovector", (BValue "t_0_isovector", BPosInf));
       ("a_omega_prime", (BNegInf, BPosInf));
       ("mass_omega_prime", (BLoc "lower_mass_bound_isoscalar", BPosInf));
       ("decay_rate_omega_prime", (BNum 0, BPosInf));
       ("a_omega_double_prime", (BNegInf, BPosInf));
       ("mass_omega_double_prime", (BLoc "lower_mass_bound_isoscalar", BPosInf));
       ("decay_rate_omega_double_prime", (BNum 0, BPosInf));
       ("a_phi", (BNegInf, BPosInf));
       ("mass_phi", (BLoc "lower_mass_bound_isoscalar", BPosInf));
       ("decay_rate_phi", (BNum 0, BPosInf));
       ("a_phi_prime", (BNegInf, BPosInf));
       ("mass_phi_prime", (BLoc "lower_mass_bound_isoscalar", BPosInf));
       ("decay_rate_phi_prime", (BNum 0, BPosInf));
       ("mass_phi_double_prime", (BLoc "lower_mass_bound_isoscalar", BPosInf));
       ("decay_rate_phi_double_prime", (BNum 0, BPosInf));
       ("a_rho_prime", (BNegInf, BPosInf));
       ("mass_rho_prime", (BLoc "lower_mass_bound_isovector", BPosInf));
       ("decay_rate_rho_prime", (BNum 0, BPosInf));
       ("a_rho_double_prime", (BNegInf, BPosInf));
       ("mass_rho_double_prime", (BLoc "lower_mass_bound_isovector", BPosInf));
       ("decay_rate_rho_double_prime", (BNum 0, BPosInf));
       ("mass_rho_triple_prime", (BLoc "lower_mass_bound_isovector", BPosInf));
       ("decay_rate_rho_triple_prime", (BNum 0, BPosInf)) ];
  ct_ordered :=
     [ "t_in_isoscalar"; "t_in_isovector"; "mass_rho_prime"; "mass_rho_double_prime";
       "mass_rho_triple_prime"; "decay_rate_rho_prime"; "decay_rate_rho_double_prime"; "decay_rate_rho_triple_prime";
       "a_rho_prime"; "a_rho_double_prime"; "mass_phi"; "mass_omega_prime";
       "mass_omega_double_prime"; "mass_phi_prime"; "mass_phi_double_prime"; "decay_rate_phi";
       "decay_rate_omega_prime"; "decay_rate_omega_double_prime"; "decay_rate_phi_prime"; "decay_rate_phi_double_prime";
       "a_phi"; "a_omega_prime"; "a_omega_double_prime"; "a_phi_prime" ];
  ct_from_ordered := Some {|
       fo_formals := [ "t_0_isoscalar"; "t_0_isovector" ];
       fo_names :=
         [ "t_in_isoscalar"; "t_in_isovector"; "mass_rho_prime"; "mass_rho_double_prime";
           "mass_rho_triple_prime"; "decay_rate_rho_prime"; "decay_rate_rho_double_prime"; "decay_rate_rho_triple_prime";
           "a_rho_prime"; "a_rho_double_prime"; "mass_phi"; "mass_omega_prime";
           "mass_omega_double_prime"; "mass_phi_prime"; "mass_phi_double_prime"; "decay_rate_phi";
           "decay_rate_omega_prime"; "decay_rate_omega_double_prime"; "decay_rate_phi_prime"; "decay_rate_phi_double_prime";
           "a_phi"; "a_omega_prime"; "a_omega_double_prime"; "a_phi_prime" ];
       fo_constants :=
         [ ("t_0_isoscalar", "t_0_isoscalar", true);
           ("t_0_isovector", "t_0_isovector", true) ] |};
  ct_fix_resonances := Some
     [ "mass_rho_prime"; "mass_rho_double_prime"; "mass_rho_triple_prime"; "decay_rate_rho_prime";
       "decay_rate_rho_double_prime"; "decay_rate_rho_triple_prime"; "mass_phi"; "mass_omega_prime";
       "mass_omega_double_prime"; "mass_phi_prime"; "mass_phi_double_prime"; "decay_rate_phi";
       "decay_rate_omega_prime"; "decay_rate_omega_double_prime"; "decay_rate_phi_prime"; "decay_rate_phi_double_prime" ]
|}.

(** [KaonParametersB]: /repo/model_parameters/KaonParametersB.py, __init__ l.10-57, _setup_data l.59-114, handpicked bounds
    l.139-169, maximal bounds l.171-205, get_ordered_values l.207-264, from_ordered_values l.267-304, fix_resonances l.306-313. *)
Definition table_KaonB : ClassTable := {|
  ct_formals :=
     [ "t_0_isoscalar"; "t_0_isovector"; "t_in_isoscalar"; "t_in_isovector";
       "a_omega"; "mass_omega"; "decay_rate_omega"; "a_omega_double_prime";
       "mass_omega_double_prime"; "decay_rate_omega_double_prime"; "a_phi"; "mass_phi";
       "decay_rate_phi"; "a_phi_prime"; "mass_phi_prime"; "decay_rate_phi_prime";
       "mass_phi_double_prime"; "decay_rate_phi_double_prime"; "a_rho"; "mass_rho";
       "decay_rate_rho"; "a_rho_prime"; "mass_rho_prime"; "decay_rate_rho_prime";
       "mass_rho_double_prime"; "decay_rate_rho_double_prime" ];
  ct_super_args :=
     [ "t_0_isoscalar"; "t_0_isovector"; "t_in_isoscalar"; "t_in_isovector";
       "a_omega"; "mass_omega"; "decay_rate_omega"; "a_omega_double_prime";
       "mass_omega_double_prime"; "decay_rate_omega_double_prime"; "a_phi"; "mass_phi";
       "decay_rate_phi"; "a_phi_prime"; "mass_phi_prime"; "decay_rate_phi_prime";
       "mass_phi_double_prime"; "decay_rate_phi_double_prime"; "a_rho"; "mass_rho";
       "decay_rate_rho"; "a_rho_prime"; "mass_rho_prime"; "decay_rate_rho_prime";
       "mass_rho_double_prime"; "decay_rate_rho_double_prime" ];
  ct_always_fixed :=
     [ "t_0_isoscalar"; "t_0_isovector"; "mass_omega"; "decay_rate_omega";
       "mass_omega_double_prime"; "decay_rate_omega_double_prime"; "mass_rho"; "decay_rate_rho";
       "mass_rho_prime"; "decay_rate_rho_prime"; "mass_rho_double_prime"; "decay_rate_rho_double_prime" ];
  ct_setup_formals :=
     [ "t_0_isoscalar"; "t_0_isovector"; "t_in_isoscalar"; "t_in_isovector";
       "a_omega"; "mass_omega"; "decay_rate_omega"; "a_omega_double_prime";
       "mass_omega_double_prime"; "decay_rate_omega_double_prime"; "a_phi"; "mass_phi";
       "decay_rate_phi"; "a_phi_prime"; "mass_phi_prime"; "decay_rate_phi_prime";
       "mass_phi_double_prime"; "decay_rate_phi_double_prime"; "a_rho"; "mass_rho";
       "decay_rate_rho"; "a_rho_prime"; "mass_rho_prime"; "decay_rate_rho_prime";
       "mass_rho_double_prime"; "decay_rate_rho_double_prime" ];
  ct_setup :=
     [ ("t_0_isoscalar", "t_0_isoscalar", true);
       ("t_0_isovector", "t_0_isovector", true);
       ("t_in_isoscalar", "t_in_isoscalar", false);
       ("t_in_isovector", "t_in_isovector", false);
       ("a_omega", "a_omega", false);
       ("mass_omega", "mass_omega", true);
       ("decay_rate_omega", "decay_rate_omega", true);
       ("a_omega_double_prime", "a_omega_double_prime", false);
       ("mass_omega_double_prime", "mass_omega_double_prime", true);
       ("decay_rate_omega_double_prime", "decay_rate_omega_double_prime", true);
       ("a_phi", "a_phi", false);
       ("mass_phi", "mass_phi", false);
       ("decay_rate_phi", "decay_rate_phi", false);
       ("a_phi_prime", "a_phi_prime", false);
       ("mass_phi_prime", "mass_phi_prime", false);
       ("decay_rate_phi_prime", "decay_rate_phi_prime", false);
       ("mass_phi_double_prime", "mass_phi_double_prime", false);
       ("decay_rate_phi_double_prime", "decay_rate_phi_double_prime", false);
       ("a_rho", "a_rho", false);
       ("mass_rho", "mass_rho", true);
       ("decay_rate_rho", "decay_rate_rho", true);
       ("a_rho_prime", "a_rho_prime", false);
       ("mass_rho_prime", "mass_rho_prime", true);
       ("decay_rate_rho_prime", "decay_rate_rho_prime", true);
       ("mass_rho_double_prime", "mass_rho_double_prime", true);
       ("decay_rate_rho_double_prime", "decay_rate_rho_double_prime", true) ];
  ct_handpicked :=
     [ ("t_in_isoscalar", (BValue "t_0_isoscalar", BPosInf));
       ("t_in_isovector", (BValue "t_0_isovector", BPosInf));
       ("a_omega", (BNegInf, BPosInf));
       ("mass_omega", (BNum (39/50), BNum (157/200)));
       ("decay_rate_omega", (BNum (43/5000), BNum (11/1250)));
       ("a_omega_double_prime", (BNegInf, BPosInf));
       ("mass_omega_double_prime", (BNum (333/200), BNum (67/40)));
       ("decay_rate_omega_double_prime", (BNum (3/10), BNum (33/100)));
       ("a_phi", (BNegInf, BPosInf));
       ("mass_phi", (BNum 1, BNum (21/20)));
       ("decay_rate_phi", (BNum (1/250), BNum (9/2000)));
       ("a_phi_prime", (BNegInf, BPosInf));
       ("mass_phi_prime", (BNum (67/40), BNum (337/200)));
       ("decay_rate_phi_prime", (BNum (1/10), BNum (1/5)));
       ("mass_phi_double_prime", (BNum (21/10), BNum (11/5)));
       ("decay_rate_phi_double_prime", (BNum (1/20), BNum (1/5)));
       ("a_rho", (BNegInf, BPosInf));
       ("mass_rho", (BNum (37/50), BNum (79/100)));
       ("decay_rate_rho", (BNum (143/1000), BNum (37/250)));
       ("a_rho_prime", (BNegInf, BPosInf));
       ("mass_rho_prime", (BNum (32/25), BNum (37/25)));
       ("decay_rate_rho_prime", (BNum (3/20), BNum (11/20)));
       ("mass_rho_double_prime", (BNum (167/100), BNum (179/100)));
       ("decay_rate_rho_double_prime", (BNum (1/10), BNum (3/5))) ];
  ct_maximal_locals :=
     [ ("lower_mass_bound_isoscalar", BSqrt "t_0_isoscalar");
       ("lower_mass_bound_isovector", BSqrt "t_0_isovector") ];
  ct_maximal :=
     [ ("t_in_isoscalar", (BValue "t_0_isoscalar", BPosInf));
       ("t_in_isovector", (BValue "t_0_isovector", BPosInf));
       ("a_omega", (BNegInf, BPosInf));
       ("mass_omega", (BLoc "lower_mass_bound_isoscalar", BPosInf));
       ("decay_rate_omega", (BNum 0, BPosInf));
       ("a_omega_double_prime", (BNegInf, BPosInf));
       ("mass_omega_double_prime", (BLoc "lower_mass_bound_isoscalar", BPosInf));
       ("decay_rate_omega_double_prime", (BNum 0, BPosInf));
       ("a_phi", (BNegInf, BPosInf));
       ("mass_phi", (BLoc "lower_mass_bound_isoscalar", BPosInf));
       ("decay_rate_phi", (BNum 0, BPosInf));
       ("a_phi_prime", (BNegInf, BPosInf));
       ("mass_phi_prime", (BLoc "lower_mass_bound_isoscalar", BPosInf));
       ("decay_rate_phi_prime", (BNum 0, BPosInf));
       ("mass_phi_double_prime", (BLoc "lower_mass_bound_isoscalar", BPosInf));
       ("decay_rate_phi_double_prime", (BNum 0, BPosInf));
       ("a_rho", (BNegInf, BPosInf));
       ("mass_rho", (BLoc "lower_mass_bound_isovector", BPosInf));
       ("decay_rate_rho", (BNum 0, BPosInf));
       ("a_rho_prime", (BNegInf, BPosInf));
       ("mass_rho_prime", (BLoc "lower_mass_bound_isovector", BPosInf));
       ("decay_rate_rho_prime", (BNum 0, BPosInf));
       ("mass_rho_double_prime", (BLoc "lower_mass_bound_isovector", BPosInf));
       ("decay_rate_rho_double_prime", (BNum 0, BPosInf)) ];
  ct_ordered :=
     [ "t_in_isoscalar"; "t_in_isovector"; "mass_rho"; "mass_rho_prime";
       "mass_rho_double_prime"; "decay_rate_rho"; "decay_rate_rho_prime"; "decay_rate_rho_double_prime";
       "a_rho"; "a_rho_prime"; "mass_omega"; "mass_phi";
       "mass_omega_double_prime"; "mass_phi_prime"; "mass_phi_double_prime"; "decay_rate_omega";
       "decay_rate_phi"; "decay_rate_omega_double_prime"; "decay_rate_phi_prime"; "decay_rate_phi_double_prime";
       "a_omega"; "a_phi"; "a_omega_double_prime"; "a_phi_prime" ];
  ct_from_ordered := Some {|
       fo_formals := [ "t_0_isoscalar"; "t_0_isovector" ];
       fo_names :=
         [ "t_in_isoscalar"; "t_in_isovector"; "mass_rho"; "mass_rho_prime";
           "mass_rho_double_prime"; "decay_rate_rho"; "decay_rate_rho_prime"; "decay_rate_rho_double_prime";
           "a_rho"; "a_rho_prime"; "mass_omega"; "mass_phi";
           "mass_omega_double_prime"; "mass_phi_prime"; "mass_phi_double_prime"; "decay_rate_omega";
           "decay_rate_phi"; "decay_rate_omega_double_prime"; "decay_rate_phi_prime"; "decay_rate_phi_double_prime";
           "a_omega"; "a_phi"; "a_omega_double_prime"; "a_phi_prime" ];
       fo_constants :=
         [ ("t_0_isoscalar", "t_0_isoscalar", true);
           ("t_0_isovector", "t_0_isovector", true) ] |};
  ct_fix_resonances := Some
     [ "mass_rho"; "mass_rho_prime"; "mass_rho_double_prime"; "decay_rate_rho";
       "decay_rate_rho_prime"; "decay_rate_rho_double_prime"; "mass_phi"; "mass_omega";
       "mass_omega_double_prime"; "mass_phi_prime"; "mass_phi_double_prime"; "decay_rate_phi";
       "decay_rate_omega"; "decay_rate_omega_double_prime"; "decay_rate_phi_prime"; "decay_rate_phi_double_prime" ]
|}.

(** [KaonParametersFixedRhoOmega]: /repo/model_parameters/KaonParametersFixedRhoOmega.py, __init__ l.10-59, _setup_data l.61-128, handpicked bounds
    l.153-185, maximal bounds l.187-223, get_ordered_values l.225-294, from_ordered_values l.297-340, fix_resonances l.342-349. *)
Definition table_KaonFixedRhoOmega : ClassTable := {|
  ct_formals :=
     [ "t_0_isoscalar"; "t_0_isovector"; "t_in_isoscalar"; "t_in_isovector";
       "a_omega"; "mass_omega"; "decay_rate_omega"; "a_omega_prime";
       "mass_omega_prime"; "decay_rate_omega_prime"; "a_omega_double_prime"; "mass_omega_double_prime";
       "decay_rate_omega_double_prime"; "a_phi"; "mass_phi"; "decay_rate_phi";
       "a_phi_prime"; "mass_phi_prime"; "decay_rate_phi_prime"; "mass_phi_double_prime";
       "decay_rate_phi_double_prime"; "a_rho"; "mass_rho"; "decay_rate_rho";
       "a_rho_prime"; "mass_rho_prime"; "decay_rate_rho_prime"; "a_rho_double_prime";
       "mass_rho_double_prime"; "decay_rate_rho_double_prime"; "mass_rho_triple_prime"; "decay_rate_rho_triple_prime" ];
  ct_super_args :=
     [ "t_0_isoscalar"; "t_0_isovector"; "t_in_isoscalar"; "t_in_isovector";
       "a_omega"; "mass_omega"; "decay_rate_omega"; "a_omega_prime";
       "mass_omega_prime"; "decay_rate_omega_prime"; "a_omega_double_prime"; "mass_omega_double_prime";
       "decay_rate_omega_double_prime"; "a_phi"; "mass_phi"; "decay_rate_phi";
       "a_phi_prime"; "mass_phi_prime"; "decay_rate_phi_prime"; "mass_phi_double_prime";
       "decay_rate_phi_double_prime"; "a_rho"; "mass_rho"; "decay_rate_rho";
       "a_rho_prime"; "mass_rho_prime"; "decay_rate_rho_prime"; "a_rho_double_prime";
       "mass_rho_double_prime"; "decay_rate_rho_double_prime"; "mass_rho_triple_prime"; "decay_rate_rho_triple_prime" ];
  ct_always_fixed :=
     [ "t_0_isoscalar"; "t_0_isovector"; "mass_omega"; "decay_rate_omega";
       "mass_rho"; "decay_rate_rho" ];
  ct_setup_formals :=
     [ "t_0_isoscalar"; "t_0_isovector"; "t_in_isoscalar"; "t_in_isovector";
       "a_omega"; "mass_omega"; "decay_rate_omega"; "a_omega_prime";
       "mass_omega_prime"; "decay_rate_omega_prime"; "a_omega_double_prime"; "mass_omega_double_prime";
       "decay_rate_omega_double_prime"; "a_phi"; "mass_phi"; "decay_rate_phi";
       "a_phi_prime"; "mass_phi_prime"; "decay_rate_phi_prime"; "mass_phi_double_prime";
       "decay_rate_phi_double_prime"; "a_rho"; "mass_rho"; "decay_rate_rho";
       "a_rho_prime"; "mass_rho_prime"; "decay_rate_rho_prime"; "a_rho_double_prime";
       "mass_rho_double_prime"; "decay_rate_rho_double_prime"; "mass_rho_triple_prime"; "decay_rate_rho_triple_prime" ];
  ct_setup :=
     [ ("t_0_isoscalar", "t_0_isoscalar", true);
       ("t_0_isovector", "t_0_isovector", true);
       ("t_in_isoscalar", "t_in_isoscalar", false);
       ("t_in_isovector", "t_in_isovector", false);
       ("a_omega", "a_omega", false);
       ("mass_omega", "mass_omega", true);
       ("decay_rate_omega", "decay_rate_omega", true);
       ("a_omega_prime", "a_omega_prime", false);
       ("mass_omega_prime", "mass_omega_prime", false);
       ("decay_rate_omega_prime", "decay_rate_omega_prime", false);
       ("a_omega_double_prime", "a_omega_double_prime", false);
       ("mass_omega_double_prime", "mass_omega_double_prime", false);
       ("decay_rate_omega_double_prime", "decay_rate_omega_double_prime", false);
       ("a_phi", "a_phi", false);
       ("mass_phi", "mass_phi", false);
       ("decay_rate_phi", "decay_rate_phi", false);
       ("a_phi_prime", "a_phi_prime", false);
       ("mass_phi_prime", "mass_phi_prime", false);
       ("decay_rate_phi_prime", "decay_rate_phi_prime", false);
       ("mass_phi_double_prime", "mass_phi_double_prime", false);
       ("decay_rate_phi_double_prime", "decay_rate_phi_double_prime", false);
       ("a_rho", "a_rho", false);
       ("mass_rho", "mass_rho", true);
       ("decay_rate_rho", "decay_rate_rho", true);
       ("a_rho_prime", "a_rho_prime", false);
       ("mass_rho_prime", "mass_rho_prime", false);
       ("decay_rate_rho_prime", "decay_rate_rho_prime", false);
       ("a_rho_double_prime", "a_rho_double_prime", false);
       ("mass_rho_double_prime", "mass_rho_double_prime", false);
       ("decay_rate_rho_double_prime", "decay_rate_rho_double_prime", false);
       ("mass_rho_triple_prime", "mass_rho_triple_prime", false);
       ("decay_rate_rho_triple_prime", "decay_rate_rho_triple_prime", false) ];
  ct_handpicked :=
     [ ("t_in_isoscalar", (BValue "t_0_isoscalar", BPosInf));
       ("t_in_isovector", (BValue "t_0_isovector", BPosInf));
       ("a_omega", (BNegInf, BPosInf));
       ("a_omega_prime", (BNegInf, BPosInf));
       ("mass_omega_prime", (BNum (137/100), BNum (29/20)));
       ("decay_rate_omega_prime", (BNum (1/4), BNum (33/100)));
       ("a_omega_double_prime", (BNegInf, BPosInf));
       ("mass_omega_double_prime", (BNum (333/200), BNum (67/40)));
       ("decay_rate_omega_double_prime", (BNum (3/10), BNum (33/100)));
       ("a_phi", (BNegInf, BPosInf));
       ("mass_phi", (BNum 1, BNum (21/20)));
       ("decay_rate_phi", (BNum (1/250), BNum (9/2000)));
       ("a_phi_prime", (BNegInf, BPosInf));
       ("mass_phi_prime", (BNum (67/40), BNum (337/200)));
       ("decay_rate_phi_prime", (BNum (1/10), BNum (1/5)));
       ("mass_phi_double_prime", (BNum (21/10), BNum (11/5)));
       ("decay_rate_phi_double_prime", (BNum (1/20), BNum (1/5)));
       ("a_rho", (BNegInf, BPosInf));
       ("a_rho_prime", (BNegInf, BPosInf));
       ("mass_rho_prime", (BNum (32/25), BNum (37/25)));
       ("decay_rate_rho_prime", (BNum (3/20), BNum (11/20)));
       ("a_rho_double_prime", (BNegInf, BPosInf));
       ("mass_rho_double_prime", (BNum (42/25), BNum (87/50)));
       ("decay_rate_rho_double_prime", (BNum (1/10), BNum (3/5)));
       ("mass_rho_triple_prime", (BNum 2, BNum (12/5)));
       ("decay_rate_rho_triple_prime", (BNum (1/10), BNum (3/5))) ];
  ct_maximal_locals :=
     [ ("lower_mass_bound_isoscalar", BSqrt "t_0_isoscalar");
       ("lower_mass_bound_isovector", BSqrt "t_0_isovector") ];
  ct_maximal :=
     [ ("t_in_isoscalar", (BValue "t_0_isoscalar", BPosInf));
       ("t_in_isovector", (BValue "t_0_isovector", BPosInf));
       ("a_omega", (BNegInf, BPosInf));
       ("a_omega_prime", (BNegInf, BPosInf));
       ("mass_omega_prime", (BLoc "lower_mass_bound_isoscalar", BPosInf));
       ("decay_rate_omega_prime", (BNum 0, BPosInf));
       ("a_omega_double_prime", (BNegInf, BPosInf));
       ("mass_omega_double_prime", (BLoc "lower_mass_bound_isoscalar", BPosInf));
       ("decay_rate_omega_double_prime", (BNum 0, BPosInf));
       ("a_phi", (BNegInf, BPosInf));
       ("mass_phi", (BLoc "lower_mass_bound_isoscalar", BPosInf));
       ("decay_rate_phi", (BNum 0, BPosInf));
       ("a_phi_prime", (BNegInf, BPosInf));
       ("mass_phi_prime", (BLoc "lower_mass_bound_isoscalar", BPosInf));
       ("decay_rate_phi_prime", (BNum 0, BPosInf));
       ("mass_phi_double_prime", (BLoc "lower_mass_bound_isoscalar", BPosInf));
       ("decay_rate_phi_double_prime", (BNum 0, BPosInf));
       ("a_rho", (BNegInf, BPosInf));
       ("a_rho_prime", (BNegInf, BPosInf));
       ("mass_rho_prime", (BLoc "lower_mass_bound_isovector", BPosInf));
       ("decay_rate_rho_prime", (BNum 0, BPosInf));
       ("a_rho_double_prime", (BNegInf, BPosInf));
       ("mass_rho_double_prime", (BLoc "lower_mass_bound_isovector", BPosInf));
       ("decay_rate_rho_double_prime", (BNum 0, BPosInf));
       ("mass_rho_triple_prime", (BLoc "lower_mass_bound_isovector", BPosInf));
       ("decay_rate_rho_triple_prime", (BNum 0, BPosInf)) ];
  ct_ordered :=
     [ "t_in_isoscalar"; "t_in_isovector"; "mass_rho"; "mass_rho_prime";
       "mass_rho_double_prime"; "mass_rho_triple_prime"; "decay_rate_rho"; "decay_rate_rho_prime";
       "decay_rate_rho_double_prime"; "decay_rate_rho_triple_prime"; "a_rho"; "a_rho_prime";
       "a_rho_double_prime"; "mass_omega"; "mass_phi"; "mass_omega_prime";
       "mass_omega_double_prime"; "mass_phi_prime"; "mass_phi_double_prime"; "decay_rate_omega";
       "decay_rate_phi"; "decay_rate_omega_prime"; "decay_rate_omega_double_prime"; "decay_rate_phi_prime";
       "decay_rate_phi_double_prime"; "a_omega"; "a_phi"; "a_omega_prime";
       "a_omega_double_prime"; "a_phi_prime" ];
  ct_from_ordered := Some {|
       fo_formals := [ "t_0_isoscalar"; "t_0_isovector" ];
       fo_names :=
         [ "t_in_isoscalar"; "t_in_isovector"; "mass_rho"; "mass_rho_prime";
           "mass_rho_double_prime"; "mass_rho_triple_prime"; "decay_rate_rho"; "decay_rate_rho_prime";
           "decay_rate_rho_double_prime"; "decay_rate_rho_triple_prime"; "a_rho"; "a_rho_prime";
           "a_rho_double_prime"; "mass_omega"; "mass_phi"; "mass_omega_prime";
           "mass_omega_double_prime"; "mass_phi_prime"; "mass_phi_double_prime"; "decay_rate_omega";
           "decay_rate_phi"; "decay_rate_omega_prime"; "decay_rate_omega_double_prime"; "decay_rate_phi_prime";
           "decay_rate_phi_double_prime"; "a_omega"; "a_phi"; "a_omega_prime";
           "a_omega_double_prime"; "a_phi_prime" ];
       fo_constants :=
         [ ("t_0_isoscalar", "t_0_isoscalar", true);
           ("t_0_isovector", "t_0_isovector", true) ] |};
  ct_fix_resonances := Some
     [ "mass_rho"; "mass_rho_prime"; "mass_rho_double_prime"; "mass_rho_triple_prime";
       "decay_rate_rho"; "decay_rate_rho_prime"; "decay_rate_rho_double_prime"; "decay_rate_rho_triple_prime";
       "mass_omega"; "mass_phi"; "mass_omega_prime"; "mass_omega_double_prime";
       "mass_phi_prime"; "mass_phi_double_prime"; "decay_rate_omega"; "decay_rate_phi";
       "decay_rate_omega_prime"; "decay_rate_omega_double_prime"; "decay_rate_phi_prime"; "decay_rate_phi_double_prime" ]
|}.

(** [KaonParametersFixedSelected]: /repo/model_parameters/KaonParametersFixedSelected.py, __init__ l.10-61, _setup_data l.63-130, handpicked bounds
    l.155-185, maximal bounds l.187-222, get_ordered_values l.224-293, from_ordered_values l.296-339, fix_resonances l.341-348. *)
Definition table_KaonFixedSelected : ClassTable := {|
  ct_formals :=
     [ "t_0_isoscalar"; "t_0_isovector"; "t_in_isoscalar"; "t_in_isovector";
       "a_omega"; "mass_omega"; "decay_rate_omega"; "a_omega_prime";
       "mass_omega_prime"; "decay_rate_omega_prime"; "a_omega_double_prime"; "mass_omega_double_prime";
       "decay_rate_omega_double_prime"; "a_phi"; "mass_phi"; "decay_rate_phi";
       "a_phi_prime"; "mass_phi_prime"; "decay_rate_phi_prime"; "mass_phi_double_prime";
       "decay_rate_phi_double_prime"; "a_rho"; "mass_rho"; "decay_rate_rho";
       "a_rho_prime"; "mass_rho_prime"; "decay_rate_rho_prime"; "a_rho_double_prime";
       "mass_rho_double_prime"; "decay_rate_rho_double_prime"; "mass_rho_triple_prime"; "decay_rate_rho_triple_prime" ];
  ct_super_args :=
     [ "t_0_isoscalar"; "t_0_isovector"; "t_in_isoscalar"; "t_in_isovector";
       "a_omega"; "mass_omega"; "decay_rate_omega"; "a_omega_prime";
       "mass_omega_prime"; "decay_rate_omega_prime"; "a_omega_double_prime"; "mass_omega_double_prime";
       "decay_rate_omega_double_prime"; "a_phi"; "mass_phi"; "decay_rate_phi";
       "a_phi_prime"; "mass_phi_prime"; "decay_rate_phi_prime"; "mass_phi_double_prime";
       "decay_rate_phi_double_prime"; "a_rho"; "mass_rho"; "decay_rate_rho";
       "a_rho_prime"; "mass_rho_prime"; "decay_rate_rho_prime"; "a_rho_double_prime";
       "mass_rho_double_prime"; "decay_rate_rho_double_prime"; "mass_rho_triple_prime"; "decay_rate_rho_triple_prime" ];
  ct_always_fixed :=
     [ "t_0_isoscalar"; "t_0_isovector"; "mass_omega"; "decay_rate_omega";
       "mass_omega_prime"; "mass_omega_double_prime"; "mass_rho"; "decay_rate_rho" ];
  ct_setup_formals :=
     [ "t_0_isoscalar"; "t_0_isovector"; "t_in_isoscalar"; "t_in_isovector";
       "a_omega"; "mass_omega"; "decay_rate_omega"; "a_omega_prime";
       "mass_omega_prime"; "decay_rate_omega_prime"; "a_omega_double_prime"; "mass_omega_double_prime";
       "decay_rate_omega_double_prime"; "a_phi"; "mass_phi"; "decay_rate_phi";
       "a_phi_prime"; "mass_phi_prime"; "decay_rate_phi_prime"; "mass_phi_double_prime";
       "decay_rate_phi_double_prime"; "a_rho"; "mass_rho"; "decay_rate_rho";
       "a_rho_prime"; "mass_rho_prime"; "decay_rate_rho_prime"; "a_rho_double_prime";
       "mass_rho_double_prime"; "decay_rate_rho_double_prime"; "mass_rho_triple_prime"; "decay_rate_rho_triple_prime" ];
  ct_setup :=
     [ ("t_0_isoscalar", "t_0_isoscalar", true);
       ("t_0_isovector", "t_0_isovector", true);
       ("t_in_isoscalar", "t_in_isoscalar", false);
       ("t_in_isovector", "t_in_isovector", false);
       ("a_omega", "a_omega", false);
       ("mass_omega", "mass_omega", true);
       ("decay_rate_omega", "decay_rate_omega", true);
       ("a_omega_prime", "a_omega_prime", false);
       ("mass_omega_prime", "mass_omega_prime", true);
       ("decay_rate_omega_prime", "decay_rate_omega_prime", false);
       ("a_omega_double_prime", "a_omega_double_prime", false);
       ("mass_omega_double_prime", "mass_omega_double_prime", true);
       ("decay_rate_omega_double_prime", "decay_rate_omega_double_prime", false);
       ("a_phi", "a_phi", false);
       ("mass_phi", "mass_phi", false);
       ("decay_rate_phi", "decay_rate_phi", false);
       ("a_phi_prime", "a_phi_prime", false);
       ("mass_phi_prime", "mass_phi_prime", false);
       ("decay_rate_phi_prime", "decay_rate_phi_prime", false);
       ("mass_phi_double_prime", "mass_phi_double_prime", false);
       ("decay_rate_phi_double_prime", "decay_rate_phi_double_prime", false);
       ("a_rho", "a_rho", false);
       ("mass_rho", "mass_rho", true);
       ("decay_rate_rho", "decay_rate_rho", true);
       ("a_rho_prime", "a_rho_prime", false);
       ("mass_rho_prime", "mass_rho_prime", false);
       ("decay_rate_rho_prime", "decay_rate_rho_prime", false);
       ("a_rho_double_prime", "a_rho_double_prime", false);
       ("mass_rho_double_prime", "mass_rho_double_prime", false);
       ("decay_rate_rho_double_prime", "decay_rate_rho_double_prime", false);
       ("mass_rho_triple_prime", "mass_rho_triple_prime", false);
       ("decay_rate_rho_triple_prime", "decay_rate_rho_triple_prime", false) ];
  ct_handpicked :=
     [ ("t_in_isoscalar", (BValue "t_0_isoscalar", BPosInf));
       ("t_in_isovector", (BValue "t_0_isovector", BPosInf));
       ("a_omega", (BNegInf, BPosInf));
       ("a_omega_prime", (BNegInf, BPosInf));
       ("decay_rate_omega_prime", (BNum (1/5), BNum (2/5)));
       ("a_omega_double_prime", (BNegInf, BPosInf));
       ("decay_rate_omega_double_prime", (BNum (1/5), BNum (2/5)));
       ("a_phi", (BNegInf, BPosInf));
       ("mass_phi", (BNum 1, BNum (11/10)));
       ("decay_rate_phi", (BNum (3/1000), BNum (1/200)));
       ("a_phi_prime", (BNegInf, BPosInf));
       ("mass_phi_prime", (BNum (8/5), BNum (17/10)));
       ("decay_rate_phi_prime", (BNum (1/10), BNum (1/5)));
       ("mass_phi_double_prime", (BNum 2, BNum (23/10)));
       ("decay_rate_phi_double_prime", (BNum (1/20), BNum (3/10)));
       ("a_rho", (BNegInf, BPosInf));
       ("a_rho_prime", (BNegInf, BPosInf));
       ("mass_rho_prime", (BNum (6/5), BNum (3/2)));
       ("decay_rate_rho_prime", (BNum (3/20), BNum (11/20)));
       ("a_rho_double_prime", (BNegInf, BPosInf));
       ("mass_rho_double_prime", (BNum (8/5), BNum (19/10)));
       ("decay_rate_rho_double_prime", (BNum (1/10), BNum (3/5)));
       ("mass_rho_triple_prime", (BNum 2, BNum (12/5)));
       ("decay_rate_rho_triple_prime", (BNum (1/10), BNum (3/5))) ];
  ct_maximal_locals :=
     [ ("lower_mass_bound_isoscalar", BSqrt "t_0_isoscalar");
       ("lower_mass_bound_isovector", BSqrt "t_0_isovector") ];
  ct_maximal :=
     [ ("t_in_isoscalar", (BValue "t_0_isoscalar", BPosInf));
       ("t_in_isovector", (BValue "t_0_isovector", BPosInf));
       ("a_omega", (BNegInf, BPosInf));
       ("a_omega_prime", (BNegInf, BPosInf));
       ("decay_rate_omega_prime", (BNum 0, BPosInf));
       ("a_omega_double_prime", (BNegInf, BPosInf));
       ("mass_omega_double_prime", (BLoc "lower_mass_bound_isoscalar", BPosInf));
       ("decay_rate_omega_double_prime", (BNum 0, BPosInf));
       ("a_phi", (BNegInf, BPosInf));
       ("mass_phi", (BLoc "lower_mass_bound_isoscalar", BPosInf));
       ("decay_rate_phi", (BNum 0, BPosInf));
       ("a_phi_prime", (BNegInf, BPosInf));
       ("mass_phi_prime", (BLoc "lower_mass_bound_isoscalar", BPosInf));
       ("decay_rate_phi_prime", (BNum 0, BPosInf));
       ("mass_phi_double_prime", (BLoc "lower_mass_bound_isoscalar", BPosInf));
       ("decay_rate_phi_double_prime", (BNum 0, BPosInf));
       ("a_rho", (BNegInf, BPosInf));
       ("a_rho_prime", (BNegInf, BPosInf));
       ("mass_rho_prime", (BLoc "lower_mass_bound_isovector", BPosInf));
       ("decay_rate_rho_prime", (BNum 0, BPosInf));
       ("a_rho_double_prime", (BNegInf, BPosInf));
       ("mass_rho_double_prime", (BLoc "lower_mass_bound_isovector", BPosInf));
       ("decay_rate_rho_double_prime", (BNum 0, BPosInf));
       ("mass_rho_triple_prime", (BLoc "lower_mass_bound_isovector", BPosInf));
       ("decay_rate_rho_triple_prime", (BNum 0, BPosInf)) ];
  ct_ordered :=
     [ "t_in_isoscalar"; "t_in_isovector"; "mass_rho"; "mass_rho_prime";
       "mass_rho_double_prime"; "mass_rho_triple_prime"; "decay_rate_rho"; "decay_rate_rho_prime";
       "decay_rate_rho_double_prime"; "decay_rate_rho_triple_prime"; "a_rho"; "a_rho_prime";
       "a_rho_double_prime"; "mass_omega"; "mass_phi"; "mass_omega_prime";
       "mass_omega_double_prime"; "mass_phi_prime"; "mass_phi_double_prime"; "decay_rate_omega";
       "decay_rate_phi"; "decay_rate_omega_prime"; "decay_rate_omega_double_prime"; "decay_rate_phi_prime";
       "decay_rate_phi_double_prime"; "a_omega"; "a_phi"; "a_omega_prime";
       "a_omega_double_prime"; "a_phi_prime" ];
  ct_from_ordered := Some {|
       fo_formals := [ "t_0_isoscalar"; "t_0_isovector" ];
       fo_names :=
         [ "t_in_isoscalar"; "t_in_isovector"; "mass_rho"; "mass_rho_prime";
           "mass_rho_double_prime"; "mass_rho_triple_prime"; "decay_rate_rho"; "decay_rate_rho_prime";
           "decay_rate_rho_double_prime"; "decay_rate_rho_triple_prime"; "a_rho"; "a_rho_prime";
           "a_rho_double_prime"; "mass_omega"; "mass_phi"; "mass_omega_prime";
           "mass_omega_double_prime"; "mass_phi_prime"; "mass_phi_double_prime"; "decay_rate_omega";
           "decay_rate_phi"; "decay_rate_omega_prime"; "decay_rate_omega_double_prime"; "decay_rate_phi_prime";
           "decay_rate_phi_double_prime"; "a_omega"; "a_phi"; "a_omega_prime";
           "a_omega_double_prime"; "a_phi_prime" ];
       fo_constants :=
         [ ("t_0_isoscalar", "t_0_isoscalar", true);
           ("t_0_isovector", "t_0_isovector", true) ] |};
  ct_fix_resonances := Some
     [ "mass_rho"; "mass_rho_prime"; "mass_rho_double_prime"; "mass_rho_triple_prime";
       "decay_rate_rho"; "decay_rate_rho_prime"; "decay_rate_rho_double_prime"; "decay_rate_rho_triple_prime";
       "mass_omega"; "mass_phi"; "mass_omega_prime"; "mass_omega_double_prime";
       "mass_phi_prime"; "mass_phi_double_prime"; "decay_rate_omega"; "decay_rate_phi";
       "decay_rate_omega_prime"; "decay_rate_omega_double_prime"; "decay_rate_phi_prime"; "decay_rate_phi_double_prime" ]
|}.

(** [NucleonParameters]: /repo/model_parameters/NucleonParameters.py, __init__ l.10-66, _setup_data l.68-145, handpicked bounds
    l.170-206, maximal bounds l.208-252, get_ordered_values l.263-296, from_ordered_values l.299-353, fix_resonances l.254-261. *)
Definition table_Nucleon : ClassTable := {|
  ct_formals :=
     [ "nucleon_mass"; "magnetic_moment_proton"; "magnetic_moment_neutron"; "t_0_dirac_isoscalar";
       "t_0_dirac_isovector"; "t_in_dirac_isoscalar"; "t_in_dirac_isovector"; "t_0_pauli_isoscalar";
       "t_0_pauli_isovector"; "t_in_pauli_isoscalar"; "t_in_pauli_isovector"; "a_dirac_omega";
       "a_pauli_omega"; "mass_omega"; "decay_rate_omega"; "a_dirac_omega_prime";
       "mass_omega_prime"; "decay_rate_omega_prime"; "mass_omega_double_prime"; "decay_rate_omega_double_prime";
       "a_dirac_phi"; "a_pauli_phi"; "mass_phi"; "decay_rate_phi";
       "a_dirac_phi_prime"; "a_pauli_phi_prime"; "mass_phi_prime"; "decay_rate_phi_prime";
       "mass_phi_double_prime"; "decay_rate_phi_double_prime"; "a_dirac_rho"; "mass_rho";
       "decay_rate_rho"; "mass_rho_prime"; "decay_rate_rho_prime"; "mass_rho_double_prime";
       "decay_rate_rho_double_prime" ];
  ct_super_args :=
     [ "nucleon_mass"; "magnetic_moment_proton"; "magnetic_moment_neutron"; "t_0_dirac_isoscalar";
       "t_0_dirac_isovector"; "t_in_dirac_isoscalar"; "t_in_dirac_isovector"; "t_0_pauli_isoscalar";
       "t_0_pauli_isovector"; "t_in_pauli_isoscalar"; "t_in_pauli_isovector"; "a_dirac_omega";
       "a_pauli_omega"; "mass_omega"; "decay_rate_omega"; "a_dirac_omega_prime";
       "mass_omega_prime"; "decay_rate_omega_prime"; "mass_omega_double_prime"; "decay_rate_omega_double_prime";
       "a_dirac_phi"; "a_pauli_phi"; "mass_phi"; "decay_rate_phi";
       "a_dirac_phi_prime"; "a_pauli_phi_prime"; "mass_phi_prime"; "decay_rate_phi_prime";
       "mass_phi_double_prime"; "decay_rate_phi_double_prime"; "a_dirac_rho"; "mass_rho";
       "decay_rate_rho"; "mass_rho_prime"; "decay_rate_rho_prime"; "mass_rho_double_prime";
       "decay_rate_rho_double_prime" ];
  ct_always_fixed :=
     [ "nucleon_mass"; "magnetic_moment_proton"; "magnetic_moment_neutron"; "t_0_dirac_isoscalar";
       "t_0_dirac_isovector"; "t_0_pauli_isoscalar"; "t_0_pauli_isovector" ];
  ct_setup_formals :=
     [ "nucleon_mass"; "magnetic_moment_proton"; "magnetic_moment_neutron"; "t_0_dirac_isoscalar";
       "t_0_dirac_isovector"; "t_in_dirac_isoscalar"; "t_in_dirac_isovector"; "t_0_pauli_isoscalar";
       "t_0_pauli_isovector"; "t_in_pauli_isoscalar"; "t_in_pauli_isovector"; "a_dirac_omega";
       "a_pauli_omega"; "mass_omega"; "decay_rate_omega"; "a_dirac_omega_prime";
       "mass_omega_prime"; "decay_rate_omega_prime"; "mass_omega_double_prime"; "decay_rate_omega_double_prime";
       "a_dirac_phi"; "a_pauli_phi"; "mass_phi"; "decay_rate_phi";
       "a_dirac_phi_prime"; "a_pauli_phi_prime"; "mass_phi_prime"; "decay_rate_phi_prime";
       "mass_phi_double_prime"; "decay_rate_phi_double_prime"; "a_dirac_rho"; "mass_rho";
       "decay_rate_rho"; "mass_rho_prime"; "decay_rate_rho_prime"; "mass_rho_double_prime";
       "decay_rate_rho_double_prime" ];
  ct_setup :=
     [ ("nucleon_mass", "nucleon_mass", true);
       ("magnetic_moment_proton", "magnetic_moment_proton", true);
       ("magnetic_moment_neutron", "magnetic_moment_neutron", true);
       ("t_0_dirac_isoscalar", "t_0_dirac_isoscalar", true);
       ("t_0_dirac_isovector", "t_0_dirac_isovector", true);
       ("t_in_dirac_isoscalar", "t_in_dirac_isoscalar", false);
       ("t_in_dirac_isovector", "t_in_dirac_isovector", false);
       ("t_0_pauli_isoscalar", "t_0_pauli_isoscalar", true);
       ("t_0_pauli_isovector", "t_0_pauli_isovector", true);
       ("t_in_pauli_isoscalar", "t_in_pauli_isoscalar", false);
       ("t_in_pauli_isovector", "t_in_pauli_isovector", false);
       ("a_dirac_omega", "a_dirac_omega", false);
       ("a_pauli_omega", "a_pauli_omega", false);
       ("mass_omega", "mass_omega", false);
       ("decay_rate_omega", "decay_rate_omega", false);
       ("a_dirac_omega_prime", "a_dirac_omega_prime", false);
       ("mass_omega_prime", "mass_omega_prime", false);
       ("decay_rate_omega_prime", "decay_rate_omega_prime", false);
       ("mass_omega_double_prime", "mass_omega_double_prime", false);
       ("decay_rate_omega_double_prime", "decay_rate_omega_double_prime", false);
       ("a_dirac_phi", "a_dirac_phi", false);
       ("a_pauli_phi", "a_pauli_phi", false);
       ("mass_phi", "mass_phi", false);
       ("decay_rate_phi", "decay_rate_phi", false);
       ("a_dirac_phi_prime", "a_dirac_phi_prime", false);
       ("a_pauli_phi_prime", "a_pauli_phi_prime", false);
       ("mass_phi_prime", "mass_phi_prime", false);
       ("decay_rate_phi_prime", "decay_rate_phi_prime", false);
       ("mass_phi_double_prime", "mass_phi_double_prime", false);
       ("decay_rate_phi_double_prime", "decay_rate_phi_double_prime", false);
       ("a_dirac_rho", "a_dirac_rho", false);
       ("mass_rho", "mass_rho", false);
       ("decay_rate_rho", "decay_rate_rho", false);
       ("mass_rho_prime", "mass_rho_prime", false);
       ("decay_rate_rho_prime", "decay_rate_rho_prime", false);
       ("mass_rho_double_prime", "mass_rho_double_prime", false);
       ("decay_rate_rho_double_prime", "decay_rate_rho_double_prime", false) ];
  ct_handpicked :=
     [ ("t_in_dirac_isoscalar", (BValue "t_0_dirac_isoscalar", BPosInf));
       ("t_in_dirac_isovector", (BValue "t_0_dirac_isovector", BPosInf));
       ("t_in_pauli_isoscalar", (BValue "t_0_pauli_isoscalar", BPosInf));
       ("t_in_pauli_isovector", (BValue "t_0_pauli_isovector", BPosInf));
       ("a_dirac_omega", (BNegInf, BPosInf));
       ("a_pauli_omega", (BNegInf, BPosInf));
       ("mass_omega", (BNum (31/40), BNum (79/100)));
       ("decay_rate_omega", (BNum (17/2000), BNum (89/10000)));
       ("a_dirac_omega_prime", (BNegInf, BPosInf));
       ("mass_omega_prime", (BNum (137/100), BNum (29/20)));
       ("decay_rate_omega_prime", (BNum (1/4), BNum (33/100)));
       ("mass_omega_double_prime", (BNum (333/200), BNum (67/40)));
       ("decay_rate_omega_double_prime", (BNum (3/10), BNum (33/100)));
       ("a_dirac_phi", (BNegInf, BPosInf));
       ("a_pauli_phi", (BNegInf, BPosInf));
       ("mass_phi", (BNum 1, BNum (21/20)));
       ("decay_rate_phi", (BNum (1/250), BNum (9/2000)));
       ("a_dirac_phi_prime", (BNegInf, BPosInf));
       ("a_pauli_phi_prime", (BNegInf, BPosInf));
       ("mass_phi_prime", (BNum (67/40), BNum (337/200)));
       ("decay_rate_phi_prime", (BNum (1/10), BNum (1/5)));
       ("mass_phi_double_prime", (BNum (21/10), BNum (11/5)));
       ("decay_rate_phi_double_prime", (BNum (1/20), BNum (1/5)));
       ("a_dirac_rho", (BNegInf, BPosInf));
       ("mass_rho", (BNum (3/4), BNum (39/50)));
       ("decay_rate_rho", (BNum (7/50), BNum (3/20)));
       ("mass_rho_prime", (BNum (32/25), BNum (37/25)));
       ("decay_rate_rho_prime", (BNum (3/20), BNum (11/20)));
       ("mass_rho_double_prime", (BNum (42/25), BNum (87/50)));
       ("decay_rate_rho_double_prime", (BNum (1/10), BNum (3/5))) ];
  ct_maximal_locals :=
     [ ("lower_mass_bound_dirac_isoscalar", BSqrt "t_0_dirac_isoscalar");
       ("lower_mass_bound_dirac_isovector", BSqrt "t_0_dirac_isovector");
       ("lower_mass_bound_pauli_isoscalar", BSqrt "t_0_pauli_isoscalar");
       ("lower_mass_bound_pauli_isovector", BSqrt "t_0_pauli_isovector");
       ("lower_mass_bound_isoscalar", BMax "lower_mass_bound_dirac_isoscalar" "lower_mass_bound_pauli_isoscalar");
       ("lower_mass_bound_isovector", BMax "lower_mass_bound_dirac_isovector" "lower_mass_bound_pauli_isovector") ];
  ct_maximal :=
     [ ("t_in_dirac_isoscalar", (BValue "t_0_dirac_isoscalar", BPosInf));
       ("t_in_dirac_isovector", (BValue "t_0_dirac_isovector", BPosInf));
       ("t_in_pauli_isoscalar", (BValue "t_0_pauli_isoscalar", BPosInf));
       ("t_in_pauli_isovector", (BValue "t_0_pauli_isovector", BPosInf));
       ("a_dirac_omega", (BNegInf, BPosInf));
       ("a_pauli_omega", (BNegInf, BPosInf));
       ("mass_omega", (BLoc "lower_mass_bound_isoscalar", BPosInf));
       ("decay_rate_omega", (BNum 0, BPosInf));
       ("a_dirac_omega_prime", (BNegInf, BPosInf));
       ("mass_omega_prime", (BLoc "lower_mass_bound_isoscalar", BPosInf));
       ("decay_rate_omega_prime", (BNum 0, BPosInf));
       ("mass_omega_double_prime", (BLoc "lower_mass_bound_isoscalar", BPosInf));
       ("decay_rate_omega_double_prime", (BNum 0, BPosInf));
       ("a_dirac_phi", (BNegInf, BPosInf));
       ("a_pauli_phi", (BNegInf, BPosInf));
       ("mass_phi", (BLoc "lower_mass_bound_isoscalar", BPosInf));
       ("decay_rate_phi", (BNum 0, BPosInf));
       ("a_dirac_phi_prime", (BNegInf, BPosInf));
       ("a_pauli_phi_prime", (BNegInf, BPosInf));
       ("mass_phi_prime", (BLoc "lower_mass_bound_isoscalar", BPosInf));
       ("decay_rate_phi_prime", (BNum 0, BPosInf));
       ("mass_phi_double_prime", (BLoc "lower_mass_bound_isoscalar", BPosInf));
       ("decay_rate_phi_double_prime", (BNum 0, BPosInf));
       ("a_dirac_rho", (BNegInf, BPosInf));
       ("mass_rho", (BLoc "lower_mass_bound_isovector", BPosInf));
       ("decay_rate_rho", (BNum 0, BPosInf));
       ("mass_rho_prime", (BLoc "lower_mass_bound_isovector", BPosInf));
       ("decay_rate_rho_prime", (BNum 0, BPosInf));
       ("mass_rho_double_prime", (BLoc "lower_mass_bound_isovector", BPosInf));
       ("decay_rate_rho_double_prime", (BNum 0, BPosInf)) ];
  ct_ordered :=
     [ "t_in_dirac_isoscalar"; "t_in_dirac_isovector"; "t_in_pauli_isoscalar"; "t_in_pauli_isovector";
       "a_dirac_omega"; "a_dirac_phi"; "a_dirac_omega_prime"; "a_dirac_phi_prime";
       "a_dirac_rho"; "a_pauli_omega"; "a_pauli_phi"; "a_pauli_phi_prime";
       "mass_omega"; "mass_phi"; "mass_omega_prime"; "mass_omega_double_prime";
       "mass_phi_prime"; "mass_phi_double_prime"; "decay_rate_omega"; "decay_rate_phi";
       "decay_rate_omega_prime"; "decay_rate_omega_double_prime"; "decay_rate_phi_prime"; "decay_rate_phi_double_prime";
       "mass_rho"; "mass_rho_prime"; "mass_rho_double_prime"; "decay_rate_rho";
       "decay_rate_rho_prime"; "decay_rate_rho_double_prime" ];
  ct_from_ordered := Some {|
       fo_formals := [ "nucleon_mass"; "magnetic_moment_proton"; "magnetic_moment_neutron"; "t_0_dirac_isoscalar";
           "t_0_dirac_isovector"; "t_0_pauli_isoscalar"; "t_0_pauli_isovector" ];
       fo_names :=
         [ "t_in_dirac_isoscalar"; "t_in_dirac_isovector"; "t_in_pauli_isoscalar"; "t_in_pauli_isovector";
           "a_dirac_omega"; "a_dirac_phi"; "a_dirac_omega_prime"; "a_dirac_phi_prime";
           "a_dirac_rho"; "a_pauli_omega"; "a_pauli_phi"; "a_pauli_phi_prime";
           "mass_omega"; "mass_phi"; "mass_omega_prime"; "mass_omega_double_prime";
           "mass_phi_prime"; "mass_phi_double_prime"; "decay_rate_omega"; "decay_rate_phi";
           "decay_rate_omega_prime"; "decay_rate_omega_double_prime"; "decay_rate_phi_prime"; "decay_rate_phi_double_prime";
           "mass_rho"; "mass_rho_prime"; "mass_rho_double_prime"; "decay_rate_rho";
           "decay_rate_rho_prime"; "decay_rate_rho_double_prime" ];
       fo_constants :=
         [ ("nucleon_mass", "nucleon_mass", true);
           ("magnetic_moment_proton", "magnetic_moment_proton", true);
           ("magnetic_moment_neutron", "magnetic_moment_neutron", true);
           ("t_0_dirac_isoscalar", "t_0_dirac_isoscalar", true);
           ("t_0_dirac_isovector", "t_0_dirac_isovector", true);
           ("t_0_pauli_isoscalar", "t_0_pauli_isoscalar", true);
           ("t_0_pauli_isovector", "t_0_pauli_isovector", true) ] |};
  ct_fix_resonances := Some
     [ "mass_rho"; "mass_rho_prime"; "mass_rho_double_prime"; "decay_rate_rho";
       "decay_rate_rho_prime"; "decay_rate_rho_double_prime"; "mass_omega"; "mass_phi";
       "mass_omega_prime"; "mass_omega_double_prime"; "mass_phi_prime"; "mass_phi_double_prime";
       "decay_rate_omega"; "decay_rate_phi"; "decay_rate_omega_prime"; "decay_rate_omega_double_prime";
       "decay_rate_phi_prime"; "decay_rate_phi_double_prime" ]
|}.

(** [ETGMRModelParameters]: /repo/model_parameters/ETGMRModelParameters.py, __init__ l.9-11, _setup_data l.13-19, handpicked bounds
    l.45-54, maximal bounds l.57-62, get_ordered_values l.64-65. *)
Definition table_ETGMR : ClassTable := {|
  ct_formals :=
     [ "a"; "m_a"; "m_d" ];
  ct_super_args :=
     [ "a"; "m_a"; "m_d" ];
  ct_always_fixed :=
     [];
  ct_setup_formals :=
     [ "a"; "m_a"; "m_d" ];
  ct_setup :=
     [ ("a", "a", false);
       ("m_a", "m_a", false);
       ("m_d", "m_d", false) ];
  ct_handpicked :=
     [ ("a", (BNegInf, BPosInf));
       ("m_a", (BNum (1/10), BPosInf));
       ("m_d", (BNum (1/10), BPosInf)) ];
  ct_maximal_locals :=
     [];
  ct_maximal :=
     [ ("a", (BNegInf, BPosInf));
       ("m_a", (BNum 0, BPosInf));
       ("m_d", (BNum 0, BPosInf)) ];
  ct_ordered :=
     [ "a"; "m_a" ];
  ct_from_ordered := None;
  ct_fix_resonances := None
|}.

(** [TwoPolesModelParameters]: /repo/model_parameters/TwoPolesModelParameters.py, __init__ l.9-11, _setup_data l.13-19, handpicked bounds
    l.45-54, maximal bounds l.57-62, get_ordered_values l.64-65. *)
Definition table_TwoPoles : ClassTable := {|
  ct_formals :=
     [ "a"; "m_1"; "m_2" ];
  ct_super_args :=
     [ "a"; "m_1"; "m_2" ];
  ct_always_fixed :=
     [];
  ct_setup_formals :=
     [ "a"; "m_1"; "m_2" ];
  ct_setup :=
     [ ("a", "a", false);
       ("m_1", "m_1", false);
       ("m_2", "m_2", false) ];
  ct_handpicked :=
     [ ("a", (BNegInf, BPosInf));
       ("m_1", (BNum (1/100), BPosInf));
       ("m_2", (BNum (1/10), BPosInf)) ];
  ct_maximal_locals :=
     [];
  ct_maximal :=
     [ ("a", (BNegInf, BPosInf));
       ("m_1", (BNum 0, BPosInf));
       ("m_2", (BNum 0, BPosInf)) ];
  ct_ordered :=
     [ "a"; "m_1"; "m_2" ];
  ct_from_ordered := None;
  ct_fix_resonances := None
|}.

(** [_OscillationsParameters]: /repo/task/ResidualOscillationsTask.py, __init__ l.17-19, _setup_data l.22-29, handpicked bounds
    l.55-65, maximal bounds l.68-74, get_ordered_values l.76-77. *)
Definition table_Oscillations : ClassTable := {|
  ct_formals :=
     [ "a"; "b"; "c"; "d" ];
  ct_super_args :=
     [ "a"; "b"; "c"; "d" ];
  ct_always_fixed :=
     [];
  ct_setup_formals :=
     [ "a"; "b"; "c"; "d" ];
  ct_setup :=
     [ ("a", "a", false);
       ("b", "b", false);
       ("c", "c", false);
       ("d", "d", false) ];
  ct_handpicked :=
     [ ("a", (BNegInf, BPosInf));
       ("b", (BNum 0, BPosInf));
       ("c", (BNum 0, BPosInf));
       ("d", (BNegInf, BPosInf)) ];
  ct_maximal_locals :=
     [];
  ct_maximal :=
     [ ("a", (BNegInf, BPosInf));
       ("b", (BNegInf, BPosInf));
       ("c", (BNegInf, BPosInf));
       ("d", (BNegInf, BPosInf)) ];
  ct_ordered :=
     [ "a"; "b"; "c"; "d" ];
  ct_from_ordered := None;
  ct_fix_resonances := None
|}.

Definition table (c : param_class) : ClassTable :=
  match c with
  | PKaon => table_Kaon
  | PKaonSimplified => table_KaonSimplified
  | PKaonB => table_KaonB
  | PKaonFixedRhoOmega => table_KaonFixedRhoOmega
  | PKaonFixedSelected => table_KaonFixedSelected
  | PNucleon => table_Nucleon
  | PETGMR => table_ETGMR
  | PTwoPoles => table_TwoPoles
  | POscillations => table_Oscillations
  end.

(** ** The public interface, by class *)

Definition always_fixed (c : param_class) : list string := ct_always_fixed (table c).
Definition construct (c : param_class) (kw : env R) : Res data := construct_table (table c) kw.
Definition from_list (c : param_class) (l : list Par) : Res data := from_list_table (table c) l.
(** [to_list] (ModelParameters.py l.32-33) is the list itself; [copy] (l.35-36). *)
Definition copy (c : param_class) (d : data) : Res data := from_list c d.
Definition full_bounds (c : param_class) (handpicked : bool) (d : data) := full_bounds_table (table c) handpicked d.
Definition get_bounds (c : param_class) (handpicked : bool) (d : data) := bounds_table (table c) handpicked d.
Definition get_ordered (c : param_class) (d : data) := ordered_table (table c) d.
Definition from_ordered (c : param_class) (vs consts : list R) := from_ordered_table (table c) vs consts.
Definition fix_resonances (c : param_class) (d : data) : Eff unit := fix_resonances_table (table c) d.

(** The public mutators as data, to speak about all call sequences. *)
Inductive mutation :=
  | MSetItem (key : string) (new : option Par)
  | MSetValue (name : string) (v : R)
  | MFix (names : list string)
  | MRelease (names : list string)
  | MFixAll
  | MReleaseAll
  | MUpdateFree (vs : list R)
  | MFixResonances.

Definition mutate (c : param_class) (m : mutation) (d : data) : Eff unit :=
  match m with
  | MSetItem k new => setitem (always_fixed c) k new d
  | MSetValue n v => set_value n v d
  | MFix ns => fix_parameters ns d
  | MRelease ns => release_parameters (always_fixed c) ns d
  | MFixAll => (Ok tt, fix_all d)
  | MReleaseAll => (Ok tt, release_all (always_fixed c) d)
  | MUpdateFree vs => update_free_values vs d
  | MFixResonances => fix_resonances c d
  end.

(** The store left behind by a call sequence; a raising call leaves what it left and the caller goes on. *)
Definition mutate_all (c : param_class) (ms : list mutation) (d : data) : data :=
  fold_left (fun d' m => snd (mutate c m d')) ms d.

(** Stores obtainable by public calls. *)
Inductive reachable (c : param_class) : data -> Prop :=
  | reach_init : forall kw d, construct c kw = Ok d -> reachable c d
  | reach_from_list : forall l d, from_list c l = Ok d -> reachable c d
  | reach_from_ordered : forall vs consts d, from_ordered c vs consts = Ok d -> reachable c d
  | reach_copy : forall d d', reachable c d -> copy c d = Ok d' -> reachable c d'
  | reach_step : forall d m, reachable c d -> reachable c (snd (mutate c m d)).
