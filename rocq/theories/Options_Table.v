(** The option classes declared in thetis/options.py: written by tools/mkoptions.py
    from the source text.  Each comment gives the line of the declaration.
    Inherited options are listed with every class. *)
From Coq Require Import String.
From Verif Require Import Num Options_Model.
Open Scope string_scope.
Open Scope Z_scope.

(** class and its ancestors, the class itself included *)
Definition hierarchy : classes := Classes [
  ("TimeStepperOptions", ["TimeStepperOptions"]);
  ("ExplicitTimeStepperOptions", ["ExplicitTimeStepperOptions"; "TimeStepperOptions"]);
  ("ExplicitTimeStepperOptions2d", ["ExplicitTimeStepperOptions2d"; "ExplicitTimeStepperOptions"; "TimeStepperOptions"]);
  ("SemiImplicitTimeStepperOptions2d", ["SemiImplicitTimeStepperOptions2d"; "TimeStepperOptions"]);
  ("SemiImplicitSWETimeStepperOptions2d", ["SemiImplicitSWETimeStepperOptions2d"; "SemiImplicitTimeStepperOptions2d"; "TimeStepperOptions"]);
  ("SemiImplicitTracerTimeStepperOptions2d", ["SemiImplicitTracerTimeStepperOptions2d"; "SemiImplicitTimeStepperOptions2d"; "TimeStepperOptions"]);
  ("SteadyStateTimeStepperOptions2d", ["SteadyStateTimeStepperOptions2d"; "TimeStepperOptions"]);
  ("CrankNicolsonSWETimeStepperOptions2d", ["CrankNicolsonSWETimeStepperOptions2d"; "SemiImplicitSWETimeStepperOptions2d"; "SemiImplicitTimeStepperOptions2d"; "TimeStepperOptions"]);
  ("CrankNicolsonTracerTimeStepperOptions2d", ["CrankNicolsonTracerTimeStepperOptions2d"; "SemiImplicitTracerTimeStepperOptions2d"; "SemiImplicitTimeStepperOptions2d"; "TimeStepperOptions"]);
  ("PressureProjectionSWETimeStepperOptions2d", ["PressureProjectionSWETimeStepperOptions2d"; "TimeStepperOptions"]);
  ("ExplicitSWETimeStepperOptions2d", ["ExplicitSWETimeStepperOptions2d"; "ExplicitTimeStepperOptions2d"; "ExplicitTimeStepperOptions"; "TimeStepperOptions"]);
  ("ExplicitTracerTimeStepperOptions2d", ["ExplicitTracerTimeStepperOptions2d"; "ExplicitTimeStepperOptions2d"; "ExplicitTimeStepperOptions"; "TimeStepperOptions"]);
  ("IMEXSWETimeStepperOptions2d", ["IMEXSWETimeStepperOptions2d"; "SemiImplicitTimeStepperOptions2d"; "TimeStepperOptions"]);
  ("TimeStepperOptions3d", ["TimeStepperOptions3d"]);
  ("SWETimeStepperOptions3d", ["SWETimeStepperOptions3d"; "TimeStepperOptions3d"]);
  ("ImplicitSWETimeStepperOptions3d", ["ImplicitSWETimeStepperOptions3d"; "SWETimeStepperOptions3d"; "TimeStepperOptions3d"]);
  ("ExplicitMomentumTimeStepperOptions3d", ["ExplicitMomentumTimeStepperOptions3d"; "TimeStepperOptions3d"]);
  ("ImplicitMomentumTimeStepperOptions3d", ["ImplicitMomentumTimeStepperOptions3d"; "TimeStepperOptions3d"]);
  ("ExplicitTracerTimeStepperOptions3d", ["ExplicitTracerTimeStepperOptions3d"; "TimeStepperOptions3d"]);
  ("ImplicitTracerTimeStepperOptions3d", ["ImplicitTracerTimeStepperOptions3d"; "TimeStepperOptions3d"]);
  ("SSPRKTimeStepperOptions3d", ["SSPRKTimeStepperOptions3d"; "TimeStepperOptions3d"]);
  ("LeapFrogTimeStepperOptions3d", ["LeapFrogTimeStepperOptions3d"; "SSPRKTimeStepperOptions3d"; "TimeStepperOptions3d"]);
  ("TurbulenceModelOptions", ["TurbulenceModelOptions"]);
  ("PacanowskiPhilanderModelOptions", ["PacanowskiPhilanderModelOptions"; "TurbulenceModelOptions"]);
  ("GLSModelOptions", ["GLSModelOptions"; "TurbulenceModelOptions"]);
  ("EquationOfStateOptions", ["EquationOfStateOptions"]);
  ("LinearEquationOfStateOptions", ["LinearEquationOfStateOptions"; "EquationOfStateOptions"]);
  ("TidalTurbineOptions", ["TidalTurbineOptions"]);
  ("ConstantTidalTurbineOptions", ["ConstantTidalTurbineOptions"; "TidalTurbineOptions"]);
  ("TabulatedTidalTurbineOptions", ["TabulatedTidalTurbineOptions"; "TidalTurbineOptions"]);
  ("TidalTurbineFarmOptions", ["TidalTurbineFarmOptions"]);
  ("DiscreteTidalTurbineFarmOptions", ["DiscreteTidalTurbineFarmOptions"; "TidalTurbineFarmOptions"]);
  ("TracerFieldOptions", ["TracerFieldOptions"]);
  ("NonhydrostaticModelOptions", ["NonhydrostaticModelOptions"]);
  ("CommonModelOptions", ["CommonModelOptions"]);
  ("SedimentModelOptions", ["SedimentModelOptions"]);
  ("ModelOptions2d", ["ModelOptions2d"; "CommonModelOptions"]);
  ("ModelOptions3d", ["ModelOptions3d"; "CommonModelOptions"])
].

(** options.py:14 *)
Definition TimeStepperOptions_class : optclass := mkClass [
  ("solver_parameters", mkDecl TDict false VDict) (* 17 *);
  ("ad_block_tag", mkDecl TUnicode true VNone) (* 18 *)
  ] [

  ].

(** options.py:24 *)
Definition ExplicitTimeStepperOptions_class : optclass := mkClass [
  ("solver_parameters", mkDecl TDict false VDict) (* 17 *);
  ("ad_block_tag", mkDecl TUnicode true VNone) (* 18 *);
  ("use_automatic_timestep", mkDecl TBool false (VBool true)) (* 26 *)
  ] [

  ].

(** options.py:29 *)
Definition ExplicitTimeStepperOptions2d_class : optclass := mkClass [
  ("solver_parameters", mkDecl TDict false VDict) (* 17 *);
  ("ad_block_tag", mkDecl TUnicode true VNone) (* 18 *);
  ("use_automatic_timestep", mkDecl TBool false (VBool true)) (* 26 *)
  ] [

  ].

(** options.py:33 *)
Definition SemiImplicitTimeStepperOptions2d_class : optclass := mkClass [
  ("solver_parameters", mkDecl TDict false VDict) (* 17 *);
  ("ad_block_tag", mkDecl TUnicode true VNone) (* 18 *);
  ("use_semi_implicit_linearization", mkDecl TBool false (VBool false)) (* 35 *)
  ] [

  ].

(** options.py:39 *)
Definition SemiImplicitSWETimeStepperOptions2d_class : optclass := mkClass [
  ("solver_parameters", mkDecl TDict false VDict) (* 44 *);
  ("ad_block_tag", mkDecl TUnicode true VNone) (* 18 *);
  ("use_semi_implicit_linearization", mkDecl TBool false (VBool false)) (* 35 *)
  ] [

  ].

(** options.py:51 *)
Definition SemiImplicitTracerTimeStepperOptions2d_class : optclass := mkClass [
  ("solver_parameters", mkDecl TDict false VDict) (* 56 *);
  ("ad_block_tag", mkDecl TUnicode true VNone) (* 18 *);
  ("use_semi_implicit_linearization", mkDecl TBool false (VBool false)) (* 35 *)
  ] [

  ].

(** options.py:62 *)
Definition SteadyStateTimeStepperOptions2d_class : optclass := mkClass [
  ("solver_parameters", mkDecl TDict false VDict) (* 64 *);
  ("ad_block_tag", mkDecl TUnicode true VNone) (* 18 *)
  ] [

  ].

(** options.py:72 *)
Definition CrankNicolsonSWETimeStepperOptions2d_class : optclass := mkClass [
  ("solver_parameters", mkDecl TDict false VDict) (* 44 *);
  ("ad_block_tag", mkDecl TUnicode true VNone) (* 18 *);
  ("use_semi_implicit_linearization", mkDecl TBool false (VBool false)) (* 35 *);
  ("implicitness_theta", mkDecl (TBndFloat (qq (1) 2) (qq (1) 1)) false (VFloat (Fin (qq (1) 2)))) (* 77 *)
  ] [

  ].

(** options.py:82 *)
Definition CrankNicolsonTracerTimeStepperOptions2d_class : optclass := mkClass [
  ("solver_parameters", mkDecl TDict false VDict) (* 56 *);
  ("ad_block_tag", mkDecl TUnicode true VNone) (* 18 *);
  ("use_semi_implicit_linearization", mkDecl TBool false (VBool false)) (* 35 *);
  ("implicitness_theta", mkDecl (TBndFloat (qq (1) 2) (qq (1) 1)) false (VFloat (Fin (qq (1) 2)))) (* 87 *)
  ] [

  ].

(** options.py:92 *)
Definition PressureProjectionSWETimeStepperOptions2d_class : optclass := mkClass [
  ("solver_parameters", mkDecl TDict false VDict) (* 17 *);
  ("ad_block_tag", mkDecl TUnicode true VNone) (* 18 *);
  ("solver_parameters_pressure", mkDecl TDict false VDict) (* 97 *);
  ("solver_parameters_momentum", mkDecl TDict false VDict) (* 124 *);
  ("implicitness_theta", mkDecl (TBndFloat (qq (1) 2) (qq (1) 1)) false (VFloat (Fin (qq (1) 2)))) (* 130 *);
  ("use_semi_implicit_linearization", mkDecl TBool false (VBool true)) (* 133 *);
  ("picard_iterations", mkDecl TPosInt false (VInt 2)) (* 135 *)
  ] [

  ].

(** options.py:140 *)
Definition ExplicitSWETimeStepperOptions2d_class : optclass := mkClass [
  ("solver_parameters", mkDecl TDict false VDict) (* 145 *);
  ("ad_block_tag", mkDecl TUnicode true VNone) (* 18 *);
  ("use_automatic_timestep", mkDecl TBool false (VBool true)) (* 26 *)
  ] [

  ].

(** options.py:155 *)
Definition ExplicitTracerTimeStepperOptions2d_class : optclass := mkClass [
  ("solver_parameters", mkDecl TDict false VDict) (* 160 *);
  ("ad_block_tag", mkDecl TUnicode true VNone) (* 18 *);
  ("use_automatic_timestep", mkDecl TBool false (VBool true)) (* 26 *)
  ] [

  ].

(** options.py:166 *)
Definition IMEXSWETimeStepperOptions2d_class : optclass := mkClass [
  ("solver_parameters", mkDecl TDict false VDict) (* 172 *);
  ("ad_block_tag", mkDecl TUnicode true VNone) (* 18 *);
  ("use_semi_implicit_linearization", mkDecl TBool false (VBool false)) (* 35 *)
  ] [

  ].

(** options.py:179 *)
Definition TimeStepperOptions3d_class : optclass := mkClass [
  ("ad_block_tag", mkDecl TUnicode true VNone) (* 181 *)
  ] [

  ].

(** options.py:187 *)
Definition SWETimeStepperOptions3d_class : optclass := mkClass [
  ("ad_block_tag", mkDecl TUnicode true VNone) (* 181 *);
  ("solver_parameters", mkDecl TDict false VDict) (* 192 *)
  ] [

  ].

(** options.py:199 *)
Definition ImplicitSWETimeStepperOptions3d_class : optclass := mkClass [
  ("ad_block_tag", mkDecl TUnicode true VNone) (* 181 *);
  ("solver_parameters", mkDecl TDict false VDict) (* 192 *);
  ("implicitness_theta", mkDecl (TBndFloat (qq (1) 2) (qq (1) 1)) false (VFloat (Fin (qq (1) 2)))) (* 204 *)
  ] [

  ].

(** options.py:209 *)
Definition ExplicitMomentumTimeStepperOptions3d_class : optclass := mkClass [
  ("ad_block_tag", mkDecl TUnicode true VNone) (* 181 *);
  ("solver_parameters", mkDecl TDict false VDict) (* 214 *)
  ] [

  ].

(** options.py:223 *)
Definition ImplicitMomentumTimeStepperOptions3d_class : optclass := mkClass [
  ("ad_block_tag", mkDecl TUnicode true VNone) (* 181 *);
  ("solver_parameters", mkDecl TDict false VDict) (* 228 *)
  ] [

  ].

(** options.py:237 *)
Definition ExplicitTracerTimeStepperOptions3d_class : optclass := mkClass [
  ("ad_block_tag", mkDecl TUnicode true VNone) (* 181 *);
  ("solver_parameters", mkDecl TDict false VDict) (* 242 *)
  ] [

  ].

(** options.py:251 *)
Definition ImplicitTracerTimeStepperOptions3d_class : optclass := mkClass [
  ("ad_block_tag", mkDecl TUnicode true VNone) (* 181 *);
  ("solver_parameters", mkDecl TDict false VDict) (* 256 *)
  ] [

  ].

(** options.py:265 *)
Definition SSPRKTimeStepperOptions3d_class : optclass := mkClass [
  ("ad_block_tag", mkDecl TUnicode true VNone) (* 181 *);
  ("use_automatic_timestep", mkDecl TBool false (VBool true)) (* 267 *)
  ] [

  ].

(** options.py:275 *)
Definition LeapFrogTimeStepperOptions3d_class : optclass := mkClass [
  ("ad_block_tag", mkDecl TUnicode true VNone) (* 181 *);
  ("use_automatic_timestep", mkDecl TBool false (VBool true)) (* 267 *)
  ] [

  ].

(** options.py:280 *)
Definition TurbulenceModelOptions_class : optclass := mkClass [

  ] [

  ].

(** options.py:285 *)
Definition PacanowskiPhilanderModelOptions_class : optclass := mkClass [
  ("max_viscosity", mkDecl TPosFloat false (VFloat (Fin (qq (1) 20)))) (* 288 *);
  ("alpha", mkDecl TPosFloat false (VFloat (Fin (qq (10) 1)))) (* 289 *);
  ("exponent", mkDecl TPosFloat false (VFloat (Fin (qq (2) 1)))) (* 290 *)
  ] [

  ].

(** options.py:293 *)
Definition GLSModelOptions_class : optclass := mkClass [
  ("closure_name", mkDecl (TEnum ["k-epsilon"; "k-omega"; "Generic Length Scale"]) false (VStr "k-epsilon")) (* 296 *);
  ("stability_function_name", mkDecl (TEnum ["Canuto A"; "Canuto B"; "Kantha-Clayson"; "Cheng"]) false (VStr "Canuto A")) (* 300 *);
  ("p", mkDecl TFloat false (VFloat (Fin (qq (3) 1)))) (* 304 *);
  ("m", mkDecl TFloat false (VFloat (Fin (qq (3) 2)))) (* 306 *);
  ("n", mkDecl TFloat false (VFloat (Fin (qq (-1) 1)))) (* 308 *);
  ("schmidt_nb_tke", mkDecl TPosFloat false (VFloat (Fin (qq (1) 1)))) (* 310 *);
  ("schmidt_nb_psi", mkDecl TPosFloat false (VFloat (Fin (qq (13) 10)))) (* 312 *);
  ("cmu0", mkDecl TPosFloat false (VFloat (Fin (qq (5477) 10000)))) (* 314 *);
  ("compute_cmu0", mkDecl TBool false (VBool true)) (* 316 *);
  ("c1", mkDecl TFloat false (VFloat (Fin (qq (36) 25)))) (* 320 *);
  ("c2", mkDecl TFloat false (VFloat (Fin (qq (48) 25)))) (* 321 *);
  ("c3_minus", mkDecl TFloat false (VFloat (Fin (qq (-13) 25)))) (* 322 *);
  ("c3_plus", mkDecl TFloat false (VFloat (Fin (qq (1) 1)))) (* 326 *);
  ("compute_c3_minus", mkDecl TBool false (VBool true)) (* 328 *);
  ("f_wall", mkDecl TFloat false (VFloat (Fin (qq (1) 1)))) (* 330 *);
  ("ri_st", mkDecl TFloat false (VFloat (Fin (qq (1) 4)))) (* 331 *);
  ("kappa", mkDecl TFloat false (VFloat (Fin (qq (2) 5)))) (* 334 *);
  ("compute_kappa", mkDecl TBool false (VBool false)) (* 338 *);
  ("compute_schmidt_nb_psi", mkDecl TBool false (VBool true)) (* 340 *);
  ("k_min", mkDecl TPosFloat false (VFloat (Fin (qq (1) 1000000)))) (* 342 *);
  ("psi_min", mkDecl TPosFloat false (VFloat (Fin (qq (1) 100000000000000)))) (* 344 *);
  ("eps_min", mkDecl TPosFloat false (VFloat (Fin (qq (1) 100000000000000)))) (* 345 *);
  ("len_min", mkDecl TPosFloat false (VFloat (Fin (qq (1) 1000000000000)))) (* 346 *);
  ("compute_galperin_clim", mkDecl TBool false (VBool true)) (* 348 *);
  ("compute_len_min", mkDecl TBool false (VBool false)) (* 350 *);
  ("compute_psi_min", mkDecl TBool false (VBool false)) (* 352 *);
  ("visc_min", mkDecl TPosFloat false (VFloat (Fin (qq (1) 100000000)))) (* 354 *);
  ("diff_min", mkDecl TPosFloat false (VFloat (Fin (qq (1) 100000000)))) (* 356 *);
  ("galperin_clim", mkDecl TPosFloat false (VFloat (Fin (qq (3) 10)))) (* 358 *);
  ("limit_len", mkDecl TBool false (VBool false)) (* 361 *);
  ("limit_psi", mkDecl TBool false (VBool true)) (* 362 *);
  ("limit_eps", mkDecl TBool false (VBool false)) (* 364 *);
  ("limit_len_min", mkDecl TBool false (VBool true)) (* 366 *)
  ] [

  ].

(** options.py:443 *)
Definition EquationOfStateOptions_class : optclass := mkClass [

  ] [

  ].

(** options.py:448 *)
Definition LinearEquationOfStateOptions_class : optclass := mkClass [
  ("rho_ref", mkDecl TNonNegFloat false (VFloat (Fin (qq (1000) 1)))) (* 453 *);
  ("s_ref", mkDecl TNonNegFloat false (VFloat (Fin (qq (35) 1)))) (* 454 *);
  ("th_ref", mkDecl TFloat false (VFloat (Fin (qq (15) 1)))) (* 455 *);
  ("alpha", mkDecl TFloat false (VFloat (Fin (qq (1) 5)))) (* 456 *);
  ("beta", mkDecl TFloat false (VFloat (Fin (qq (77) 100)))) (* 457 *)
  ] [

  ].

(** options.py:460 *)
Definition TidalTurbineOptions_class : optclass := mkClass [
  ("diameter", mkDecl TPosFloat false (VFloat (Fin (qq (18) 1)))) (* 463 *);
  ("projected_diameter", mkDecl TPosFloat true VNone) (* 465 *);
  ("C_support", mkDecl TNonNegFloat false (VFloat (Fin (qq (0) 1)))) (* 468 *);
  ("A_support", mkDecl TNonNegFloat false (VFloat (Fin (qq (0) 1)))) (* 470 *);
  ("apply_shear_profile", mkDecl TBool false (VBool false)) (* 472 *);
  ("shear_alpha", mkDecl TFloat false (VFloat (Fin (qq (7) 1)))) (* 473 *);
  ("shear_beta", mkDecl TFloat false (VFloat (Fin (qq (2) 5)))) (* 474 *);
  ("rel_hub_height", mkDecl TPosFloat true VNone) (* 475 *);
  ("structure_type", mkDecl (TEnum ["bottom-fixed"; "floating"]) false (VStr "bottom-fixed")) (* 478 *)
  ] [

  ].

(** options.py:482 *)
Definition ConstantTidalTurbineOptions_class : optclass := mkClass [
  ("diameter", mkDecl TPosFloat false (VFloat (Fin (qq (18) 1)))) (* 463 *);
  ("projected_diameter", mkDecl TPosFloat true VNone) (* 465 *);
  ("C_support", mkDecl TNonNegFloat false (VFloat (Fin (qq (0) 1)))) (* 468 *);
  ("A_support", mkDecl TNonNegFloat false (VFloat (Fin (qq (0) 1)))) (* 470 *);
  ("apply_shear_profile", mkDecl TBool false (VBool false)) (* 472 *);
  ("shear_alpha", mkDecl TFloat false (VFloat (Fin (qq (7) 1)))) (* 473 *);
  ("shear_beta", mkDecl TFloat false (VFloat (Fin (qq (2) 5)))) (* 474 *);
  ("rel_hub_height", mkDecl TPosFloat true VNone) (* 475 *);
  ("structure_type", mkDecl (TEnum ["bottom-fixed"; "floating"]) false (VStr "bottom-fixed")) (* 478 *);
  ("thrust_coefficient", mkDecl TPosFloat false (VFloat (Fin (qq (4) 5)))) (* 485 *);
  ("power_coefficient", mkDecl TPosFloat true VNone) (* 487 *)
  ] [

  ].

(** options.py:493 *)
Definition TabulatedTidalTurbineOptions_class : optclass := mkClass [
  ("diameter", mkDecl TPosFloat false (VFloat (Fin (qq (18) 1)))) (* 463 *);
  ("projected_diameter", mkDecl TPosFloat true VNone) (* 465 *);
  ("C_support", mkDecl TNonNegFloat false (VFloat (Fin (qq (0) 1)))) (* 468 *);
  ("A_support", mkDecl TNonNegFloat false (VFloat (Fin (qq (0) 1)))) (* 470 *);
  ("apply_shear_profile", mkDecl TBool false (VBool false)) (* 472 *);
  ("shear_alpha", mkDecl TFloat false (VFloat (Fin (qq (7) 1)))) (* 473 *);
  ("shear_beta", mkDecl TFloat false (VFloat (Fin (qq (2) 5)))) (* 474 *);
  ("rel_hub_height", mkDecl TPosFloat true VNone) (* 475 *);
  ("structure_type", mkDecl (TEnum ["bottom-fixed"; "floating"]) false (VStr "bottom-fixed")) (* 478 *);
  ("thrust_speeds", mkDecl TList false VList) (* 496 *);
  ("thrust_coefficients", mkDecl TList false VList) (* 500 *);
  ("power_coefficients", mkDecl TList true VNone) (* 501 *)
  ] [

  ].

(** options.py:515 *)
Definition TidalTurbineFarmOptions_class : optclass := mkClass [
  ("turbine_density", mkDecl TScalar false (VUfl UConstant true)) (* 518 *);
  ("break_even_wattage", mkDecl TNonNegFloat false (VFloat (Fin (qq (0) 1)))) (* 520 *);
  ("turbine_type", mkDecl (TEnum ["constant"; "table"]) false (VStr "constant")) (* 507 *);
  ("turbine_options", mkDecl (TInstance "TidalTurbineOptions") false (VObj "ConstantTidalTurbineOptions" [])) (* 514 *)
  ] [
  ("turbine_type", mkPair "turbine_options" [("constant", "ConstantTidalTurbineOptions"); ("table", "TabulatedTidalTurbineOptions")])
  ].

(** options.py:524 *)
Definition DiscreteTidalTurbineFarmOptions_class : optclass := mkClass [
  ("turbine_density", mkDecl TScalar false (VUfl UConstant true)) (* 518 *);
  ("break_even_wattage", mkDecl TNonNegFloat false (VFloat (Fin (qq (0) 1)))) (* 520 *);
  ("turbine_type", mkDecl (TEnum ["constant"; "table"]) false (VStr "constant")) (* 507 *);
  ("turbine_options", mkDecl (TInstance "TidalTurbineOptions") false (VObj "ConstantTidalTurbineOptions" [])) (* 514 *);
  ("turbine_coordinates", mkDecl TList false VList) (* 527 *);
  ("upwind_correction", mkDecl TBool false (VBool true)) (* 528 *);
  ("quadrature_degree", mkDecl TPosInt false (VInt 10)) (* 530 *)
  ] [
  ("turbine_type", mkPair "turbine_options" [("constant", "ConstantTidalTurbineOptions"); ("table", "TabulatedTidalTurbineOptions")])
  ].

(** options.py:534 *)
Definition TracerFieldOptions_class : optclass := mkClass [
  ("function", mkDecl TScalar true VNone) (* 537 *);
  ("source", mkDecl TScalar true VNone) (* 539 *);
  ("diffusivity", mkDecl TScalar true VNone) (* 541 *);
  ("use_conservative_form", mkDecl TBool false (VBool false)) (* 543 *);
  ("metadata", mkDecl TDict false VDict) (* 545 *)
  ] [

  ].

(** options.py:566 *)
Definition NonhydrostaticModelOptions_class : optclass := mkClass [
  ("solve_nonhydrostatic_pressure", mkDecl TBool false (VBool false)) (* 569 *);
  ("q_degree", mkDecl TNonNegInt true VNone) (* 570 *);
  ("update_free_surface", mkDecl TBool false (VBool true)) (* 572 *);
  ("solver_parameters", mkDecl TDict false VDict) (* 573 *);
  ("free_surface_timestepper_type", mkDecl (TEnum ["SSPRK33"; "ForwardEuler"; "BackwardEuler"; "CrankNicolson"; "DIRK22"; "DIRK33"]) false (VStr "CrankNicolson")) (* 554 *);
  ("free_surface_timestepper_options", mkDecl (TInstance "TimeStepperOptions") false (VObj "CrankNicolsonTracerTimeStepperOptions2d" [])) (* 565 *)
  ] [
  ("free_surface_timestepper_type", mkPair "free_surface_timestepper_options" [("SSPRK33", "ExplicitTracerTimeStepperOptions2d"); ("ForwardEuler", "ExplicitTracerTimeStepperOptions2d"); ("BackwardEuler", "SemiImplicitTracerTimeStepperOptions2d"); ("CrankNicolson", "CrankNicolsonTracerTimeStepperOptions2d"); ("DIRK22", "SemiImplicitTracerTimeStepperOptions2d"); ("DIRK33", "SemiImplicitTracerTimeStepperOptions2d")])
  ].

(** options.py:583 *)
Definition CommonModelOptions_class : optclass := mkClass [
  ("nh_model_options", mkDecl (TInstance "NonhydrostaticModelOptions") false (VObj "NonhydrostaticModelOptions" [])) (* 586 *);
  ("polynomial_degree", mkDecl TNonNegInt false (VInt 1)) (* 587 *);
  ("element_family", mkDecl (TEnum ["dg-dg"; "rt-dg"; "bdm-dg"; "dg-cg"]) false (VStr "dg-dg")) (* 588 *);
  ("use_nonlinear_equations", mkDecl TBool false (VBool true)) (* 596 *);
  ("use_grad_div_viscosity_term", mkDecl TBool false (VBool false)) (* 597 *);
  ("use_grad_depth_viscosity_term", mkDecl TBool false (VBool true)) (* 602 *);
  ("use_lax_friedrichs_velocity", mkDecl TBool false (VBool true)) (* 608 *);
  ("lax_friedrichs_velocity_scaling_factor", mkDecl TConstant false (VUfl UConstant true)) (* 610 *);
  ("use_lax_friedrichs_tracer", mkDecl TBool false (VBool false)) (* 612 *);
  ("lax_friedrichs_tracer_scaling_factor", mkDecl TConstant false (VUfl UConstant true)) (* 614 *);
  ("use_limiter_for_tracers", mkDecl TBool false (VBool true)) (* 616 *);
  ("check_volume_conservation_2d", mkDecl TBool false (VBool false)) (* 619 *);
  ("log_output", mkDecl TBool false (VBool true)) (* 626 *);
  ("timestep", mkDecl TPosFloat false (VFloat (Fin (qq (10) 1)))) (* 628 *);
  ("cfl_2d", mkDecl TPosFloat false (VFloat (Fin (qq (1) 1)))) (* 630 *);
  ("cfl_3d", mkDecl TPosFloat false (VFloat (Fin (qq (1) 1)))) (* 632 *);
  ("simulation_initial_date", mkDecl TDatetime true VNone) (* 634 *);
  ("simulation_end_date", mkDecl TDatetime true VNone) (* 637 *);
  ("simulation_export_time", mkDecl TPosFloat false (VFloat (Fin (qq (100) 1)))) (* 640 *);
  ("simulation_end_time", mkDecl TPosFloat true VNone) (* 647 *);
  ("horizontal_velocity_scale", mkDecl TConstant false (VUfl UConstant true)) (* 649 *);
  ("horizontal_viscosity_scale", mkDecl TConstant false (VUfl UConstant true)) (* 655 *);
  ("horizontal_diffusivity_scale", mkDecl TConstant false (VUfl UConstant true)) (* 661 *);
  ("output_directory", mkDecl TUnicode false (VStr "outputs")) (* 668 *);
  ("no_exports", mkDecl TBool false (VBool false)) (* 670 *);
  ("export_diagnostics", mkDecl TBool false (VBool true)) (* 677 *);
  ("fields_to_export", mkDecl TList false VList) (* 679 *);
  ("fields_to_export_hdf5", mkDecl TList false VList) (* 683 *);
  ("verbose", mkDecl TInt false (VInt 0)) (* 687 *);
  ("linear_drag_coefficient", mkDecl TScalar true VNone) (* 688 *);
  ("quadratic_drag_coefficient", mkDecl TScalar true VNone) (* 694 *);
  ("manning_drag_coefficient", mkDecl TScalar true VNone) (* 700 *);
  ("nikuradse_bed_roughness", mkDecl TScalar true VNone) (* 706 *);
  ("norm_smoother", mkDecl TConstant false (VUfl UConstant true)) (* 712 *);
  ("horizontal_viscosity", mkDecl TScalar true VNone) (* 718 *);
  ("coriolis_frequency", mkDecl TScalar true VNone) (* 720 *);
  ("wind_stress", mkDecl TVector true VNone) (* 722 *);
  ("atmospheric_pressure", mkDecl TScalar true VNone) (* 724 *);
  ("momentum_source_2d", mkDecl TVector true VNone) (* 726 *);
  ("volume_source_2d", mkDecl TScalar true VNone) (* 728 *);
  ("sipg_factor", mkDecl TScalar false (VUfl UConstant true)) (* 730 *);
  ("sipg_factor_tracer", mkDecl TScalar false (VUfl UConstant true)) (* 732 *)
  ] [

  ].

(** options.py:760 *)
Definition SedimentModelOptions_class : optclass := mkClass [
  ("solve_exner", mkDecl TBool false (VBool false)) (* 761 *);
  ("solve_suspended_sediment", mkDecl TBool false (VBool false)) (* 762 *);
  ("use_sediment_conservative_form", mkDecl TBool false (VBool false)) (* 763 *);
  ("use_bedload", mkDecl TBool false (VBool false)) (* 764 *);
  ("use_sediment_slide", mkDecl TBool false (VBool false)) (* 765 *);
  ("horizontal_diffusivity", mkDecl TCoefficient true VNone) (* 766 *);
  ("use_angle_correction", mkDecl TBool false (VBool true)) (* 768 *);
  ("use_slope_mag_correction", mkDecl TBool false (VBool true)) (* 769 *);
  ("use_secondary_current", mkDecl TBool false (VBool false)) (* 770 *);
  ("average_sediment_size", mkDecl TScalar true VNone) (* 771 *);
  ("slide_region", mkDecl TScalar true VNone) (* 772 *);
  ("bed_reference_height", mkDecl TScalar true VNone) (* 776 *);
  ("use_advective_velocity_correction", mkDecl TBool false (VBool true)) (* 777 *);
  ("porosity", mkDecl TCoefficient false (VUfl UConstant true)) (* 783 *);
  ("max_angle", mkDecl TConstant false (VUfl UConstant true)) (* 785 *);
  ("sed_slide_length_scale", mkDecl TConstant false (VUfl UConstant true)) (* 787 *);
  ("morphological_acceleration_factor", mkDecl TConstant false (VUfl UConstant true)) (* 792 *);
  ("morphological_viscosity", mkDecl TScalar true VNone) (* 797 *);
  ("sediment_density", mkDecl TScalar false (VUfl UConstant true)) (* 801 *);
  ("secondary_current_parameter", mkDecl TConstant false (VUfl UConstant true)) (* 803 *);
  ("slope_effect_parameter", mkDecl TConstant false (VUfl UConstant true)) (* 805 *);
  ("slope_effect_angle_parameter", mkDecl TConstant false (VUfl UConstant true)) (* 807 *);
  ("check_sediment_conservation", mkDecl TBool false (VBool false)) (* 809 *);
  ("check_sediment_overshoot", mkDecl TBool false (VBool false)) (* 815 *);
  ("sediment_model_class", mkDecl TType false VType) (* 821 *);
  ("sediment_timestepper_type", mkDecl (TEnum ["SSPRK33"; "ForwardEuler"; "BackwardEuler"; "CrankNicolson"; "DIRK22"; "DIRK33"]) false (VStr "CrankNicolson")) (* 736 *);
  ("sediment_timestepper_options", mkDecl (TInstance "TimeStepperOptions") false (VObj "CrankNicolsonTracerTimeStepperOptions2d" [])) (* 747 *);
  ("exner_timestepper_type", mkDecl (TEnum ["SSPRK33"; "ForwardEuler"; "BackwardEuler"; "CrankNicolson"; "DIRK22"; "DIRK33"]) false (VStr "CrankNicolson")) (* 748 *);
  ("exner_timestepper_options", mkDecl (TInstance "TimeStepperOptions") false (VObj "CrankNicolsonTracerTimeStepperOptions2d" [])) (* 759 *)
  ] [
  ("sediment_timestepper_type", mkPair "sediment_timestepper_options" [("SSPRK33", "ExplicitTracerTimeStepperOptions2d"); ("ForwardEuler", "ExplicitTracerTimeStepperOptions2d"); ("BackwardEuler", "SemiImplicitTracerTimeStepperOptions2d"); ("CrankNicolson", "CrankNicolsonTracerTimeStepperOptions2d"); ("DIRK22", "SemiImplicitTracerTimeStepperOptions2d"); ("DIRK33", "SemiImplicitTracerTimeStepperOptions2d")]);
  ("exner_timestepper_type", mkPair "exner_timestepper_options" [("SSPRK33", "ExplicitTracerTimeStepperOptions2d"); ("ForwardEuler", "ExplicitTracerTimeStepperOptions2d"); ("BackwardEuler", "SemiImplicitTracerTimeStepperOptions2d"); ("CrankNicolson", "CrankNicolsonTracerTimeStepperOptions2d"); ("DIRK22", "SemiImplicitTracerTimeStepperOptions2d"); ("DIRK33", "SemiImplicitTracerTimeStepperOptions2d")])
  ].

(** options.py:866 *)
Definition ModelOptions2d_class : optclass := mkClass [
  ("nh_model_options", mkDecl (TInstance "NonhydrostaticModelOptions") false (VObj "NonhydrostaticModelOptions" [])) (* 586 *);
  ("polynomial_degree", mkDecl TNonNegInt false (VInt 1)) (* 587 *);
  ("element_family", mkDecl (TEnum ["dg-dg"; "rt-dg"; "bdm-dg"; "dg-cg"]) false (VStr "dg-dg")) (* 588 *);
  ("use_nonlinear_equations", mkDecl TBool false (VBool true)) (* 596 *);
  ("use_grad_div_viscosity_term", mkDecl TBool false (VBool false)) (* 597 *);
  ("use_grad_depth_viscosity_term", mkDecl TBool false (VBool true)) (* 602 *);
  ("use_lax_friedrichs_velocity", mkDecl TBool false (VBool true)) (* 608 *);
  ("lax_friedrichs_velocity_scaling_factor", mkDecl TConstant false (VUfl UConstant true)) (* 610 *);
  ("use_lax_friedrichs_tracer", mkDecl TBool false (VBool false)) (* 612 *);
  ("lax_friedrichs_tracer_scaling_factor", mkDecl TConstant false (VUfl UConstant true)) (* 614 *);
  ("use_limiter_for_tracers", mkDecl TBool false (VBool true)) (* 616 *);
  ("check_volume_conservation_2d", mkDecl TBool false (VBool false)) (* 619 *);
  ("log_output", mkDecl TBool false (VBool true)) (* 626 *);
  ("timestep", mkDecl TPosFloat false (VFloat (Fin (qq (10) 1)))) (* 628 *);
  ("cfl_2d", mkDecl TPosFloat false (VFloat (Fin (qq (1) 1)))) (* 630 *);
  ("cfl_3d", mkDecl TPosFloat false (VFloat (Fin (qq (1) 1)))) (* 632 *);
  ("simulation_initial_date", mkDecl TDatetime true VNone) (* 634 *);
  ("simulation_end_date", mkDecl TDatetime true VNone) (* 637 *);
  ("simulation_export_time", mkDecl TPosFloat false (VFloat (Fin (qq (100) 1)))) (* 640 *);
  ("simulation_end_time", mkDecl TPosFloat true VNone) (* 647 *);
  ("horizontal_velocity_scale", mkDecl TConstant false (VUfl UConstant true)) (* 649 *);
  ("horizontal_viscosity_scale", mkDecl TConstant false (VUfl UConstant true)) (* 655 *);
  ("horizontal_diffusivity_scale", mkDecl TConstant false (VUfl UConstant true)) (* 661 *);
  ("output_directory", mkDecl TUnicode false (VStr "outputs")) (* 668 *);
  ("no_exports", mkDecl TBool false (VBool false)) (* 670 *);
  ("export_diagnostics", mkDecl TBool false (VBool true)) (* 677 *);
  ("fields_to_export", mkDecl TList false VList) (* 679 *);
  ("fields_to_export_hdf5", mkDecl TList false VList) (* 683 *);
  ("verbose", mkDecl TInt false (VInt 0)) (* 687 *);
  ("linear_drag_coefficient", mkDecl TScalar true VNone) (* 688 *);
  ("quadratic_drag_coefficient", mkDecl TScalar true VNone) (* 694 *);
  ("manning_drag_coefficient", mkDecl TScalar true VNone) (* 700 *);
  ("nikuradse_bed_roughness", mkDecl TScalar true VNone) (* 706 *);
  ("norm_smoother", mkDecl TConstant false (VUfl UConstant true)) (* 712 *);
  ("horizontal_viscosity", mkDecl TScalar true VNone) (* 718 *);
  ("coriolis_frequency", mkDecl TScalar true VNone) (* 720 *);
  ("wind_stress", mkDecl TVector true VNone) (* 722 *);
  ("atmospheric_pressure", mkDecl TScalar true VNone) (* 724 *);
  ("momentum_source_2d", mkDecl TVector true VNone) (* 726 *);
  ("volume_source_2d", mkDecl TScalar true VNone) (* 728 *);
  ("sipg_factor", mkDecl TScalar false (VUfl UConstant true)) (* 730 *);
  ("sipg_factor_tracer", mkDecl TScalar false (VUfl UConstant true)) (* 732 *);
  ("sediment_model_options", mkDecl (TInstance "SedimentModelOptions") false (VObj "SedimentModelOptions" [])) (* 869 *);
  ("use_tracer_conservative_form", mkDecl TBool false (VBool false)) (* 870 *);
  ("use_wetting_and_drying", mkDecl TBool false (VBool false)) (* 871 *);
  ("wetting_and_drying_alpha", mkDecl TScalar false (VUfl UConstant true)) (* 877 *);
  ("use_automatic_wetting_and_drying_alpha", mkDecl TBool false (VBool false)) (* 883 *);
  ("wetting_and_drying_alpha_min", mkDecl TScalar true VNone) (* 891 *);
  ("wetting_and_drying_alpha_max", mkDecl TScalar true (VUfl UConstant true)) (* 897 *);
  ("tidal_turbine_farms", mkDecl TDict false VDict) (* 903 *);
  ("discrete_tidal_turbine_farms", mkDecl TDict false VDict) (* 907 *);
  ("check_tracer_conservation", mkDecl TBool false (VBool false)) (* 911 *);
  ("tracer_advective_velocity_factor", mkDecl TScalar false (VUfl UConstant true)) (* 917 *);
  ("check_tracer_overshoot", mkDecl TBool false (VBool false)) (* 924 *);
  ("tracer_only", mkDecl TBool false (VBool false)) (* 930 *);
  ("tracer_element_family", mkDecl (TEnum ["dg"; "cg"]) false (VStr "dg")) (* 935 *);
  ("use_supg_tracer", mkDecl TBool false (VBool false)) (* 941 *);
  ("tracer_picard_iterations", mkDecl TPosInt false (VInt 1)) (* 943 *);
  ("swe_timestepper_type", mkDecl (TEnum ["SSPRK33"; "ForwardEuler"; "BackwardEuler"; "CrankNicolson"; "DIRK22"; "DIRK33"; "SteadyState"; "PressureProjectionPicard"; "SSPIMEX"]) false (VStr "CrankNicolson")) (* 838 *);
  ("swe_timestepper_options", mkDecl (TInstance "TimeStepperOptions") false (VObj "CrankNicolsonSWETimeStepperOptions2d" [])) (* 852 *);
  ("tracer_timestepper_type", mkDecl (TEnum ["SSPRK33"; "ForwardEuler"; "BackwardEuler"; "CrankNicolson"; "DIRK22"; "DIRK33"; "SteadyState"]) false (VStr "CrankNicolson")) (* 853 *);
  ("tracer_timestepper_options", mkDecl (TInstance "TimeStepperOptions") false (VObj "CrankNicolsonTracerTimeStepperOptions2d" [])) (* 865 *)
  ] [
  ("swe_timestepper_type", mkPair "swe_timestepper_options" [("SSPRK33", "ExplicitSWETimeStepperOptions2d"); ("ForwardEuler", "ExplicitSWETimeStepperOptions2d"); ("BackwardEuler", "SemiImplicitSWETimeStepperOptions2d"); ("CrankNicolson", "CrankNicolsonSWETimeStepperOptions2d"); ("DIRK22", "SemiImplicitSWETimeStepperOptions2d"); ("DIRK33", "SemiImplicitSWETimeStepperOptions2d"); ("SteadyState", "SteadyStateTimeStepperOptions2d"); ("PressureProjectionPicard", "PressureProjectionSWETimeStepperOptions2d"); ("SSPIMEX", "IMEXSWETimeStepperOptions2d")]);
  ("tracer_timestepper_type", mkPair "tracer_timestepper_options" [("SSPRK33", "ExplicitTracerTimeStepperOptions2d"); ("ForwardEuler", "ExplicitTracerTimeStepperOptions2d"); ("BackwardEuler", "SemiImplicitTracerTimeStepperOptions2d"); ("CrankNicolson", "CrankNicolsonTracerTimeStepperOptions2d"); ("DIRK22", "SemiImplicitTracerTimeStepperOptions2d"); ("DIRK33", "SemiImplicitTracerTimeStepperOptions2d"); ("SteadyState", "SteadyStateTimeStepperOptions2d")])
  ].

(** options.py:1067 *)
Definition ModelOptions3d_class : optclass := mkClass [
  ("nh_model_options", mkDecl (TInstance "NonhydrostaticModelOptions") false (VObj "NonhydrostaticModelOptions" [])) (* 586 *);
  ("polynomial_degree", mkDecl TNonNegInt false (VInt 1)) (* 587 *);
  ("element_family", mkDecl (TEnum ["dg-dg"; "rt-dg"; "bdm-dg"; "dg-cg"]) false (VStr "dg-dg")) (* 588 *);
  ("use_nonlinear_equations", mkDecl TBool false (VBool true)) (* 596 *);
  ("use_grad_div_viscosity_term", mkDecl TBool false (VBool false)) (* 597 *);
  ("use_grad_depth_viscosity_term", mkDecl TBool false (VBool true)) (* 602 *);
  ("use_lax_friedrichs_velocity", mkDecl TBool false (VBool true)) (* 608 *);
  ("lax_friedrichs_velocity_scaling_factor", mkDecl TConstant false (VUfl UConstant true)) (* 610 *);
  ("use_lax_friedrichs_tracer", mkDecl TBool false (VBool false)) (* 612 *);
  ("lax_friedrichs_tracer_scaling_factor", mkDecl TConstant false (VUfl UConstant true)) (* 614 *);
  ("use_limiter_for_tracers", mkDecl TBool false (VBool true)) (* 616 *);
  ("check_volume_conservation_2d", mkDecl TBool false (VBool false)) (* 619 *);
  ("log_output", mkDecl TBool false (VBool true)) (* 626 *);
  ("timestep", mkDecl TPosFloat false (VFloat (Fin (qq (10) 1)))) (* 628 *);
  ("cfl_2d", mkDecl TPosFloat false (VFloat (Fin (qq (1) 1)))) (* 630 *);
  ("cfl_3d", mkDecl TPosFloat false (VFloat (Fin (qq (1) 1)))) (* 632 *);
  ("simulation_initial_date", mkDecl TDatetime true VNone) (* 634 *);
  ("simulation_end_date", mkDecl TDatetime true VNone) (* 637 *);
  ("simulation_export_time", mkDecl TPosFloat false (VFloat (Fin (qq (100) 1)))) (* 640 *);
  ("simulation_end_time", mkDecl TPosFloat true VNone) (* 647 *);
  ("horizontal_velocity_scale", mkDecl TConstant false (VUfl UConstant true)) (* 649 *);
  ("horizontal_viscosity_scale", mkDecl TConstant false (VUfl UConstant true)) (* 655 *);
  ("horizontal_diffusivity_scale", mkDecl TConstant false (VUfl UConstant true)) (* 661 *);
  ("output_directory", mkDecl TUnicode false (VStr "outputs")) (* 668 *);
  ("no_exports", mkDecl TBool false (VBool false)) (* 670 *);
  ("export_diagnostics", mkDecl TBool false (VBool true)) (* 677 *);
  ("fields_to_export", mkDecl TList false VList) (* 679 *);
  ("fields_to_export_hdf5", mkDecl TList false VList) (* 683 *);
  ("verbose", mkDecl TInt false (VInt 0)) (* 687 *);
  ("linear_drag_coefficient", mkDecl TScalar true VNone) (* 688 *);
  ("quadratic_drag_coefficient", mkDecl TScalar true VNone) (* 694 *);
  ("manning_drag_coefficient", mkDecl TScalar true VNone) (* 700 *);
  ("nikuradse_bed_roughness", mkDecl TScalar true VNone) (* 706 *);
  ("norm_smoother", mkDecl TConstant false (VUfl UConstant true)) (* 712 *);
  ("horizontal_viscosity", mkDecl TScalar true VNone) (* 718 *);
  ("coriolis_frequency", mkDecl TScalar true VNone) (* 720 *);
  ("wind_stress", mkDecl TVector true VNone) (* 722 *);
  ("atmospheric_pressure", mkDecl TScalar true VNone) (* 724 *);
  ("momentum_source_2d", mkDecl TVector true VNone) (* 726 *);
  ("volume_source_2d", mkDecl TScalar true VNone) (* 728 *);
  ("sipg_factor", mkDecl TScalar false (VUfl UConstant true)) (* 730 *);
  ("sipg_factor_tracer", mkDecl TScalar false (VUfl UConstant true)) (* 732 *);
  ("solve_salinity", mkDecl TBool false (VBool true)) (* 1070 *);
  ("solve_temperature", mkDecl TBool false (VBool true)) (* 1071 *);
  ("use_implicit_vertical_diffusion", mkDecl TBool false (VBool true)) (* 1072 *);
  ("use_bottom_friction", mkDecl TBool false (VBool true)) (* 1073 *);
  ("use_ale_moving_mesh", mkDecl TBool false (VBool true)) (* 1074 *);
  ("use_baroclinic_formulation", mkDecl TBool false (VBool false)) (* 1076 *);
  ("use_turbulence", mkDecl TBool false (VBool false)) (* 1078 *);
  ("use_turbulence_advection", mkDecl TBool false (VBool false)) (* 1080 *);
  ("use_smagorinsky_viscosity", mkDecl TBool false (VBool false)) (* 1082 *);
  ("smagorinsky_coefficient", mkDecl TConstant false (VUfl UConstant true)) (* 1084 *);
  ("use_limiter_for_velocity", mkDecl TBool false (VBool true)) (* 1090 *);
  ("check_volume_conservation_3d", mkDecl TBool false (VBool false)) (* 1092 *);
  ("check_salinity_conservation", mkDecl TBool false (VBool false)) (* 1098 *);
  ("check_salinity_overshoot", mkDecl TBool false (VBool false)) (* 1104 *);
  ("check_temperature_conservation", mkDecl TBool false (VBool false)) (* 1110 *);
  ("check_temperature_overshoot", mkDecl TBool false (VBool false)) (* 1116 *);
  ("timestep_2d", mkDecl TPosFloat false (VFloat (Fin (qq (10) 1)))) (* 1122 *);
  ("vertical_velocity_scale", mkDecl TConstant false (VUfl UConstant true)) (* 1129 *);
  ("use_quadratic_pressure", mkDecl TBool false (VBool false)) (* 1135 *);
  ("use_quadratic_density", mkDecl TBool false (VBool false)) (* 1146 *);
  ("bottom_roughness", mkDecl TScalar true VNone) (* 1154 *);
  ("horizontal_diffusivity", mkDecl TScalar true VNone) (* 1156 *);
  ("vertical_diffusivity", mkDecl TScalar true VNone) (* 1158 *);
  ("vertical_viscosity", mkDecl TScalar true VNone) (* 1160 *);
  ("momentum_source_3d", mkDecl TVector true VNone) (* 1162 *);
  ("salinity_source_3d", mkDecl TScalar true VNone) (* 1164 *);
  ("temperature_source_3d", mkDecl TScalar true VNone) (* 1166 *);
  ("constant_temperature", mkDecl TConstant false (VUfl UConstant true)) (* 1168 *);
  ("constant_salinity", mkDecl TConstant false (VUfl UConstant true)) (* 1170 *);
  ("sipg_factor_vertical", mkDecl TScalar false (VUfl UConstant true)) (* 1172 *);
  ("sipg_factor_vertical_tracer", mkDecl TScalar false (VUfl UConstant true)) (* 1174 *);
  ("sipg_factor_turb", mkDecl TScalar false (VUfl UConstant true)) (* 1176 *);
  ("sipg_factor_vertical_turb", mkDecl TScalar false (VUfl UConstant true)) (* 1178 *);
  ("internal_pg_scalar", mkDecl TConstant true VNone) (* 1180 *);
  ("timestepper_type", mkDecl (TEnum ["LeapFrog"; "SSPRK22"]) false (VStr "SSPRK22")) (* 1044 *);
  ("timestepper_options", mkDecl (TInstance "TimeStepperOptions3d") false (VObj "SSPRKTimeStepperOptions3d" [])) (* 1051 *);
  ("turbulence_model_type", mkDecl (TEnum ["gls"; "pacanowski"]) false (VStr "gls")) (* 1052 *);
  ("turbulence_model_options", mkDecl (TInstance "TurbulenceModelOptions") false (VObj "GLSModelOptions" [])) (* 1059 *);
  ("equation_of_state_type", mkDecl (TEnum ["full"; "linear"]) false (VStr "full")) (* 1060 *);
  ("equation_of_state_options", mkDecl (TInstance "EquationOfStateOptions") false (VObj "EquationOfStateOptions" [])) (* 1066 *)
  ] [
  ("timestepper_type", mkPair "timestepper_options" [("LeapFrog", "LeapFrogTimeStepperOptions3d"); ("SSPRK22", "SSPRKTimeStepperOptions3d")]);
  ("turbulence_model_type", mkPair "turbulence_model_options" [("gls", "GLSModelOptions"); ("pacanowski", "PacanowskiPhilanderModelOptions")]);
  ("equation_of_state_type", mkPair "equation_of_state_options" [("full", "EquationOfStateOptions"); ("linear", "LinearEquationOfStateOptions")])
  ].

Definition option_classes : list (string * optclass) := [
  ("TimeStepperOptions", TimeStepperOptions_class);
  ("ExplicitTimeStepperOptions", ExplicitTimeStepperOptions_class);
  ("ExplicitTimeStepperOptions2d", ExplicitTimeStepperOptions2d_class);
  ("SemiImplicitTimeStepperOptions2d", SemiImplicitTimeStepperOptions2d_class);
  ("SemiImplicitSWETimeStepperOptions2d", SemiImplicitSWETimeStepperOptions2d_class);
  ("SemiImplicitTracerTimeStepperOptions2d", SemiImplicitTracerTimeStepperOptions2d_class);
  ("SteadyStateTimeStepperOptions2d", SteadyStateTimeStepperOptions2d_class);
  ("CrankNicolsonSWETimeStepperOptions2d", CrankNicolsonSWETimeStepperOptions2d_class);
  ("CrankNicolsonTracerTimeStepperOptions2d", CrankNicolsonTracerTimeStepperOptions2d_class);
  ("PressureProjectionSWETimeStepperOptions2d", PressureProjectionSWETimeStepperOptions2d_class);
  ("ExplicitSWETimeStepperOptions2d", ExplicitSWETimeStepperOptions2d_class);
  ("ExplicitTracerTimeStepperOptions2d", ExplicitTracerTimeStepperOptions2d_class);
  ("IMEXSWETimeStepperOptions2d", IMEXSWETimeStepperOptions2d_class);
  ("TimeStepperOptions3d", TimeStepperOptions3d_class);
  ("SWETimeStepperOptions3d", SWETimeStepperOptions3d_class);
  ("ImplicitSWETimeStepperOptions3d", ImplicitSWETimeStepperOptions3d_class);
  ("ExplicitMomentumTimeStepperOptions3d", ExplicitMomentumTimeStepperOptions3d_class);
  ("ImplicitMomentumTimeStepperOptions3d", ImplicitMomentumTimeStepperOptions3d_class);
  ("ExplicitTracerTimeStepperOptions3d", ExplicitTracerTimeStepperOptions3d_class);
  ("ImplicitTracerTimeStepperOptions3d", ImplicitTracerTimeStepperOptions3d_class);
  ("SSPRKTimeStepperOptions3d", SSPRKTimeStepperOptions3d_class);
  ("LeapFrogTimeStepperOptions3d", LeapFrogTimeStepperOptions3d_class);
  ("TurbulenceModelOptions", TurbulenceModelOptions_class);
  ("PacanowskiPhilanderModelOptions", PacanowskiPhilanderModelOptions_class);
  ("GLSModelOptions", GLSModelOptions_class);
  ("EquationOfStateOptions", EquationOfStateOptions_class);
  ("LinearEquationOfStateOptions", LinearEquationOfStateOptions_class);
  ("TidalTurbineOptions", TidalTurbineOptions_class);
  ("ConstantTidalTurbineOptions", ConstantTidalTurbineOptions_class);
  ("TabulatedTidalTurbineOptions", TabulatedTidalTurbineOptions_class);
  ("TidalTurbineFarmOptions", TidalTurbineFarmOptions_class);
  ("DiscreteTidalTurbineFarmOptions", DiscreteTidalTurbineFarmOptions_class);
  ("TracerFieldOptions", TracerFieldOptions_class);
  ("NonhydrostaticModelOptions", NonhydrostaticModelOptions_class);
  ("CommonModelOptions", CommonModelOptions_class);
  ("SedimentModelOptions", SedimentModelOptions_class);
  ("ModelOptions2d", ModelOptions2d_class);
  ("ModelOptions3d", ModelOptions3d_class)
].

(** plain attributes of the classes (not option types); those holding an object
    are created once, with the class *)
Definition class_attrs : list (string * list (string * pyval)) := [
  ("TimeStepperOptions", [("name", VStr "Time stepper")]);
  ("ExplicitTimeStepperOptions", [("name", VStr "Time stepper")]);
  ("ExplicitTimeStepperOptions2d", [("name", VStr "Time stepper")]);
  ("SemiImplicitTimeStepperOptions2d", [("name", VStr "Time stepper")]);
  ("SemiImplicitSWETimeStepperOptions2d", [("name", VStr "Time stepper")]);
  ("SemiImplicitTracerTimeStepperOptions2d", [("name", VStr "Time stepper")]);
  ("SteadyStateTimeStepperOptions2d", [("name", VStr "Time stepper")]);
  ("CrankNicolsonSWETimeStepperOptions2d", [("name", VStr "Time stepper")]);
  ("CrankNicolsonTracerTimeStepperOptions2d", [("name", VStr "Time stepper")]);
  ("PressureProjectionSWETimeStepperOptions2d", [("name", VStr "Time stepper")]);
  ("ExplicitSWETimeStepperOptions2d", [("name", VStr "Time stepper")]);
  ("ExplicitTracerTimeStepperOptions2d", [("name", VStr "Time stepper")]);
  ("IMEXSWETimeStepperOptions2d", [("name", VStr "Time stepper")]);
  ("TimeStepperOptions3d", []);
  ("SWETimeStepperOptions3d", []);
  ("ImplicitSWETimeStepperOptions3d", []);
  ("ExplicitMomentumTimeStepperOptions3d", []);
  ("ImplicitMomentumTimeStepperOptions3d", []);
  ("ExplicitTracerTimeStepperOptions3d", []);
  ("ImplicitTracerTimeStepperOptions3d", []);
  ("SSPRKTimeStepperOptions3d", [("swe_options", VObj "SWETimeStepperOptions3d" []); ("implicit_momentum_options", VObj "ImplicitMomentumTimeStepperOptions3d" []); ("explicit_momentum_options", VObj "ExplicitMomentumTimeStepperOptions3d" []); ("implicit_tracer_options", VObj "ImplicitTracerTimeStepperOptions3d" []); ("explicit_tracer_options", VObj "ExplicitTracerTimeStepperOptions3d" [])]);
  ("LeapFrogTimeStepperOptions3d", [("swe_options", VObj "ImplicitSWETimeStepperOptions3d" []); ("implicit_momentum_options", VObj "ImplicitMomentumTimeStepperOptions3d" []); ("explicit_momentum_options", VObj "ExplicitMomentumTimeStepperOptions3d" []); ("implicit_tracer_options", VObj "ImplicitTracerTimeStepperOptions3d" []); ("explicit_tracer_options", VObj "ExplicitTracerTimeStepperOptions3d" [])]);
  ("TurbulenceModelOptions", [("name", VStr "Turbulence closure model")]);
  ("PacanowskiPhilanderModelOptions", [("name", VStr "Pacanowski-Philander turbulence closure model")]);
  ("GLSModelOptions", [("name", VStr "Generic Length Scale turbulence closure model")]);
  ("EquationOfStateOptions", [("name", VStr "Equation of State")]);
  ("LinearEquationOfStateOptions", [("name", VStr "Linear Equation of State")]);
  ("TidalTurbineOptions", [("name", VStr "Tidal turbine options")]);
  ("ConstantTidalTurbineOptions", [("name", VStr "Constant tidal turbine options")]);
  ("TabulatedTidalTurbineOptions", [("name", VStr "Tabulated tidal turbine options")]);
  ("TidalTurbineFarmOptions", [("name", VStr "Farm options")]);
  ("DiscreteTidalTurbineFarmOptions", [("name", VStr "Discrete Farm options")]);
  ("TracerFieldOptions", [("name", VStr "Tracer options")]);
  ("NonhydrostaticModelOptions", [("name", VStr "Non-hydrostatic 2D/3D models")]);
  ("CommonModelOptions", [("name", VStr "Model options")]);
  ("SedimentModelOptions", []);
  ("ModelOptions2d", [("name", VStr "Depth-averaged 2D model")]);
  ("ModelOptions3d", [("name", VStr "3D hydrostatic model")])
].

(** declarations by class name *)
Definition decls_of (cls : string) : list (string * decl) :=
  match Exporter_Model.dict_get option_classes cls with Some c => oc_decls c | None => [] end.
