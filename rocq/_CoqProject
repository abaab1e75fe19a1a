-Q theories Verif
theories/Base.v
theories/Interp_Model.v
theories/Interp_Spec.v
theories/Interp_Proofs.v
theories/Interp_Proofs2.v
theories/Interp_Props.v
theories/Jac_Model.v
theories/Jac_Spec.v
theories/Jac_Proofs.v
theories/Jac_Proofs2.v
theories/Jac_Props.v
theories/Ctimes_Model.v
theories/Ctimes_Spec.v
theories/Ctimes_Proofs.v
theories/Ctimes_Props.v
theories/Adjoint_Model.v
theories/Adjoint_Spec.v
theories/Adjoint_Proofs.v
theories/Adjoint_Proofs2.v
theories/Adjoint_Proofs3.v
theories/Adjoint_Proofs4.v
theories/Adjoint_Props.v
theories/Optim_Model.v
theories/Optim_Spec.v
theories/Optim_Proofs.v
theories/Optim_Props.v
theories/Newton_Model.v
theories/Newton_Spec.v
theories/Newton_Proofs.v
theories/Newton_Props.v
theories/Evolve_Model.v
theories/Evolve_Spec.v
theories/Evolve_Proofs.v
theories/Evolve_Proofs2.v
theories/Evolve_Props.v
theories/Calc.v
theories/Euler_Model.v
theories/Euler_Spec.v
theories/Euler_Proofs.v
theories/Euler_Proofs2.v
theories/Euler_Props.v
theories/Box_Model.v
theories/Box_Spec.v
theories/Box_Proofs.v
theories/Box_Props.v
theories/Net_Model.v
theories/Net_Spec.v
theories/Net_Proofs.v
theories/Net_Proofs2.v
theories/Net_Proofs3.v
theories/Net_Proofs4.v
theories/Net_Proofs5.v
theories/Net_Proofs6.v
theories/Net_Proofs7.v
theories/Net_Proofs8.v
theories/Net_Proofs9.v
theories/Net_Proofs10.v
theories/Net_Props.v
theories/Handler_Model.v
theories/Handler_Spec.v
theories/Handler_Proofs.v
theories/Handler_Proofs2.v
theories/Handler_Props.v
theories/Cost_Model.v
theories/Cost_Spec.v
theories/Cost_Proofs.v
theories/Cost_Props.v
theories/Stoch_Model.v
theories/Stoch_Proofs.v
theories/Stoch_Props.v
theories/Json_Model.v
theories/Json_Spec.v
theories/Json_Proofs.v
theories/Json_Proofs2.v
theories/Json_Proofs3.v
theories/Json_Props.v
theories/Defaults_Model.v
theories/Defaults_Spec.v
theories/Defaults_Proofs.v
theories/Defaults_Proofs2.v
theories/Defaults_Proofs3.v
theories/Defaults_Props.v
theories/Units_Model.v
theories/Units_Spec.v
theories/Units_Proofs.v
theories/Units_Proofs2.v
theories/Units_Props.v
theories/Files_Model.v
theories/Files_Spec.v
theories/Files_Proofs.v
theories/Files_Proofs2.v
theories/Files_Props.v
theories/Graph_Model.v
theories/Graph_Spec.v
theories/Graph_Proofs.v
theories/Graph_Proofs2.v
theories/Graph_Proofs3.v
theories/Graph_Props.v
theories/Controls_Model.v
theories/Controls_Spec.v
theories/Controls_Proofs.v
theories/Controls_Proofs2.v
theories/Controls_Proofs3.v
theories/Controls_Props.v
theories/Float64_Model.v
theories/Float64_Spec.v
theories/Float64_Proofs.v
theories/Float64_Proofs2.v
theories/Float64_Proofs3.v
theories/Float64_Proofs4.v
theories/Float64_Proofs5.v
theories/Float64_Props.v
theories/States_Model.v
theories/States_Spec.v
theories/States_Proofs.v
theories/States_Proofs2.v
theories/States_Proofs3.v
theories/States_Proofs4.v
theories/States_Proofs5.v
theories/States_Props.v
theories/Factory_Model.v
theories/Factory_Spec.v
theories/Factory_Proofs.v
theories/Factory_Proofs2.v
theories/Factory_Proofs3.v
theories/Factory_Proofs4.v
theories/Factory_Proofs5.v
theories/Factory_Proofs6.v
theories/Factory_Proofs7.v
theories/Factory_Proofs8.v
theories/Factory_Proofs9.v
theories/Factory_Props.v
theories/Factory_Props2.v
theories/Colebrook_Model.v
theories/Colebrook_Spec.v
theories/Colebrook_Proofs.v
theories/Colebrook_Proofs2.v
theories/Colebrook_Props.v
theories/Bounds_Model.v
theories/Bounds_Spec.v
theories/Bounds_Proofs.v
theories/Bounds_Proofs2.v
theories/Bounds_Props.v
theories/Whole_Model.v
theories/Whole_Spec.v
theories/Whole_Proofs.v
theories/Whole_Proofs2.v
theories/Whole_Proofs3.v
theories/Whole_Proofs4.v
theories/Whole_Props.v
theories/Iface_Model.v
theories/Iface_Spec.v
theories/Iface_Proofs.v
theories/Iface_Proofs2.v
theories/Iface_Proofs3.v
theories/Iface_Props.v
theories/Run_Model.v
theories/Run_Spec.v
theories/Run_Proofs.v
theories/Run_Props.v
theories/Schemadir_Model.v
theories/Schemadir_Spec.v
theories/Schemadir_Proofs.v
theories/Schemadir_Props.v
theories/Views_Model.v
theories/Views_Spec.v
theories/Views_Proofs.v
theories/Views_Proofs2.v
theories/Views_Proofs3.v
theories/Views_Props.v
theories/Jacview_Model.v
theories/Jacview_Spec.v
theories/Jacview_Proofs.v
theories/Jacview_Proofs2.v
theories/Jacview_Props.v
theories/Implicit_Spec.v
theories/Implicit_Proofs.v
theories/Implicit_Proofs2.v
theories/Implicit_Proofs3.v
theories/Implicit_Props.v
theories/Sim_Model.v
theories/Sim_Spec.v
theories/Sim_Proofs.v
theories/Sim_Proofs2.v
theories/Sim_Proofs3.v
theories/Mass_Spec.v
theories/Mass_Proofs.v
theories/Mass_Proofs2.v
theories/Sim_Props.v
theories/Seed_Model.v
theories/Seed_Spec.v
theories/Seed_Proofs.v
theories/Seed_Proofs2.v
theories/Seed_Proofs3.v
theories/Seed_Props.v
theories/Input_Model.v
theories/Input_Spec.v
theories/Input_Proofs.v
theories/Input_Proofs2.v
theories/Input_Proofs3.v
theories/Input_Proofs4.v
theories/Input_Proofs5.v
theories/Input_Props.v
theories/Setup_Model.v
theories/Setup_Spec.v
theories/Setup_Proofs.v
theories/Setup_Proofs2.v
theories/Setup_Props.v
theories/Answer_Model.v
theories/Answer_Spec.v
theories/Answer_Proofs.v
theories/Answer_Proofs2.v
theories/Answer_Proofs3.v
theories/Answer_Proofs4.v
theories/Answer_Props.v
theories/Result_Model.v
theories/Result_Spec.v
theories/Result_Proofs.v
theories/Result_Props.v
theories/Noise_Model.v
theories/Noise_Spec.v
theories/Noise_Proofs.v
theories/Noise_Proofs2.v
theories/Noise_Proofs3.v
theories/Noise_Proofs4.v
theories/Noise_Proofs5.v
theories/Noise_Proofs6.v
theories/Noise_Props.v
theories/Converge_Spec.v
theories/Converge_Proofs.v
theories/Converge_Proofs2.v
theories/Converge_Proofs3.v
theories/Converge_Proofs4.v
theories/Converge_Proofs5.v
theories/Converge_Props.v
theories/Noptim_Model.v
theories/Noptim_Spec.v
theories/Noptim_Sources.v
theories/Noptim_Frozen.v
theories/Noptim_Proofs.v
theories/Noptim_Proofs2.v
theories/Noptim_Proofs3.v
theories/Noptim_Props.v
theories/Stamp_Model.v
theories/Stamp_Spec.v
theories/Stamp_Proofs.v
theories/Stamp_Props.v
theories/Steady_Spec.v
theories/Steady_Proofs.v
theories/Steady_Props.v
theories/Grid_Spec.v
theories/Grid_Proofs.v
theories/Grid_Proofs2.v
theories/Grid_Props.v
theories/Renumber_Spec.v
theories/Renumber_Proofs.v
theories/Renumber_Proofs2.v
theories/Renumber_Props.v
theories/Level_Spec.v
theories/Level_Proofs.v
theories/Level_Proofs2.v
theories/Level_Props.v
theories/Stuck_Spec.v
theories/Stuck_Proofs.v
theories/Stuck_Proofs2.v
theories/Stuck_Props.v
theories/Linear_Proofs.v
theories/Forest_Spec.v
theories/Forest_Proofs.v
theories/Forest_Proofs2.v
theories/Forest_Proofs3.v
theories/Forest_Proofs4.v
theories/Forest_Props.v
theories/Interp_Proofs3.v
theories/Interp_Props2.v
theories/Euler_Proofs3.v
theories/Euler_Props2.v
theories/Result_Proofs2.v
theories/Result_Proofs3.v
theories/Result_Props2.v
theories/Part_Spec.v
theories/Part_Proofs.v
theories/Part_Proofs2.v
theories/Part_Props.v
theories/Load_Spec.v
theories/Load_Proofs.v
theories/Load_Proofs2.v
theories/Load_Props.v
theories/Walk_Spec.v
theories/Walk_Proofs.v
theories/Walk_Props.v
theories/Limits_Props.v
theories/Shift_Spec.v
theories/Shift_Proofs.v
theories/Shift_Props.v
theories/Apart_Spec.v
theories/Apart_Proofs.v
theories/Apart_Proofs2.v
theories/Apart_Props.v
theories/Memory_Spec.v
theories/Memory_Proofs.v
theories/Memory_Props.v
theories/Insert_Spec.v
theories/Insert_Proofs.v
theories/Insert_Proofs2.v
theories/Insert_Props.v
theories/Unit_Spec.v
theories/Unit_Proofs.v
theories/Unit_Proofs2.v
theories/Unit_Props.v
theories/Parallel_Spec.v
theories/Parallel_Proofs.v
theories/Parallel_Props.v
theories/Cut_Spec.v
theories/Cut_Proofs.v
theories/Cut_Proofs2.v
theories/Cut_Props.v
theories/Swap_Spec.v
theories/Swap_Proofs.v
theories/Swap_Props.v
theories/Lift_Spec.v
theories/Lift_Proofs.v
theories/Lift_Props.v
theories/Lines_Spec.v
theories/Lines_Proofs.v
theories/Lines_Props.v
theories/Turns_Spec.v
theories/Turns_Proofs.v
theories/Turns_Props.v
theories/Affine_Spec.v
theories/Affine_Proofs.v
theories/Affine_Proofs2.v
theories/Affine_Props.v
theories/Adapt_Spec.v
theories/Adapt_Proofs.v
theories/Adapt_Proofs2.v
theories/Adapt_Props.v
theories/Past_Spec.v
theories/Past_Proofs.v
theories/Past_Props.v
theories/Signed_Spec.v
theories/Signed_Proofs.v
theories/Signed_Props.v
theories/Truth_Props.v
theories/Above_Props.v
