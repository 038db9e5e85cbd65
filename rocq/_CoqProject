-Q theories Verif
theories/Common.v
theories/Base91_Model.v
theories/Base91_Proofs.v
theories/Base64_Proofs.v
theories/Base91_Props.v
theories/Stl_Model.v
theories/Stl_Proofs.v
theories/Stl_Props.v
theories/History_Model.v
theories/History_Order_Proofs.v
theories/History_Real_Proofs.v
theories/History_Average_Proofs.v
theories/History_Props.v
theories/Blocked_Model.v
theories/Blocked_Spec.v
theories/Blocked_Proofs.v
theories/Blocked_Props.v
theories/Sim_Model.v
theories/Sim_Spec.v
theories/Sim_Proofs.v
theories/Sim_Props.v
theories/Observer_Model.v
theories/Observer_Spec.v
theories/Observer_Proofs.v
theories/Observer_Text_Proofs.v
theories/Observer_Json_Proofs.v
theories/Observer_Series_Proofs.v
theories/Observer_Props.v
theories/Server_Model.v
theories/Server_Spec.v
theories/Server_Proofs.v
theories/Server_Props.v
theories/Output_Model.v
theories/Output_Spec.v
theories/Output_Proofs.v
theories/Output_Props.v
theories/Wave_Model.v
theories/Wave_Spec.v
theories/Wave_Proofs.v
theories/Wave_Flat_Proofs.v
theories/Wave_Airy_Proofs.v
theories/Wave_Props.v
theories/Wave_Surface_Props.v
theories/Wave_Flow_Spec.v
theories/Wave_Flow_Proofs.v
theories/Wave_Flow_Props.v
theories/Wave_Depth_Props.v
theories/Wave_Spectrum_Props.v
theories/Wave_Spreading_Props.v
theories/Geometry.v
theories/Force_Model.v
theories/Force_Spec.v
theories/Force_Props.v
theories/Rudder_Props.v
theories/Propeller_Model.v
theories/Propeller_Props.v
theories/Hull_Model.v
theories/Hull_Spec.v
theories/Hull_Proofs.v
theories/Hull_Archimedes_Proofs.v
theories/Hull_Props.v
theories/Hull_Force_Props.v
theories/Hull_Examples.v
theories/Hull_Orientation_Props.v
theories/Hull_Pressure_Props.v
theories/Radiation_Model.v
theories/Radiation_Props.v
theories/Gz_Model.v
theories/Gz_Props.v
theories/Hdb_Model.v
theories/Hdb_Props.v
theories/Diffraction_Props.v
theories/Man_Model.v
theories/Man_Spec.v
theories/Man_Proofs.v
theories/Man_Props.v
theories/Mesh_Model.v
theories/Mesh_Spec.v
theories/Mesh_Proofs.v
theories/Mesh_Props.v
theories/Cut_Proofs.v
theories/Triangle_Proofs.v
theories/Cut_Loop_Proofs.v
theories/Cut_Props.v
theories/Cut_Area_Props.v
theories/Cut_Quad_Props.v
theories/Grpc_Model.v
theories/Grpc_Spec.v
theories/Attitude_Props.v
theories/Grpc_Props.v
theories/Grpc_Client_Model.v
theories/Grpc_Client_Props.v
theories/Closing_Model.v
theories/Closing_Spec.v
theories/Closing_Graph_Proofs.v
theories/Closing_Group_Props.v
theories/Closing_Contour_Proofs.v
theories/Closing_Walk_Proofs.v
theories/Closing_Contour_Props.v
theories/Closing_Shape_Props.v
theories/Closing_Path_Props.v
theories/Lid_Edges_Proofs.v
theories/Lid_Groups_Proofs.v
theories/Lid_Build_Proofs.v
theories/Floating_Spec.v
theories/Floating_Geometry_Proofs.v
theories/Floating_Mesh_Proofs.v
theories/Floating_Proofs.v
theories/Floating_Facets_Proofs.v
theories/Floating_Props.v
theories/Floating_Planar_Proofs.v
theories/Floating_Force_Props.v
theories/Floating_Examples.v
theories/Matrix_Model.v
theories/Matrix_Proofs.v
theories/Inertia_Model.v
theories/Inertia_Spec.v
theories/Inertia_Proofs.v
theories/Inertia_Props.v
theories/Builder_Model.v
theories/Builder_Attitude_Proofs.v
theories/Builder_Spec.v
theories/Builder_Proofs.v
theories/Builder_Props.v
theories/Gm_Model.v
theories/Gm_Props.v
theories/Command_Model.v
theories/Command_Props.v
theories/Wire_Model.v
theories/Wire_Spec.v
theories/Wire_Proofs.v
theories/Wire_Props.v
theories/Main_Model.v
theories/Main_Props.v
theories/Memory_Proofs.v
theories/Frame_Model.v
theories/Frame_Props.v
theories/Froude_Model.v
theories/Froude_Spec.v
theories/Froude_Props.v
theories/Multi_Model.v
theories/Multi_Props.v
theories/Hdf5_Model.v
theories/Hdf5_Spec.v
theories/Hdf5_Proofs.v
theories/Hdf5_File_Proofs.v
theories/Hdf5_Series_Proofs.v
theories/Hdf5_Observer_Proofs.v
theories/Hdf5_Props.v
theories/Hdf5_Clash_Proofs.v
theories/Hdf5_Names_Model.v
theories/Hdf5_Names_Props.v
theories/Hdf5_Spectra_Proofs.v
theories/Hdf5_Spectra_Props.v
theories/Hdf5_Mesh_Model.v
theories/Hdf5_Mesh_Props.v
theories/Stored_Model.v
theories/Stored_Props.v
theories/Yaml_Model.v
theories/Yaml_Spec.v
theories/Yaml_Proofs.v
theories/Yaml_Rotation_Proofs.v
theories/Yaml_Props.v
theories/Yaml_Waves_Props.v
theories/Yaml_Examples.v
theories/Sea_Model.v
theories/Sea_Props.v
theories/Sea_Examples.v
theories/Sea_Spectra_Props.v
theories/Nan_Model.v
theories/Nan_Props.v
theories/Man_System_Model.v
theories/Man_System_Spec.v
theories/Man_System_Proofs.v
theories/Man_System_Props.v
theories/Section_Model.v
theories/Section_Spec.v
theories/Section_Props.v
theories/Section_Force_Props.v
theories/Ascii_Model.v
theories/Ascii_Spec.v
theories/Ascii_Proofs.v
theories/Ascii_Props.v
theories/Tool_Model.v
theories/Tool_Props.v
theories/Writer_Model.v
theories/Writer_Props.v
theories/Report_Model.v
theories/Report_Props.v
theories/Forced_Model.v
theories/Forced_Props.v
theories/Righting_Model.v
theories/Righting_Props.v
theories/Solver_Model.v
theories/Solver_Props.v
theories/Rudder_Point_Props.v
theories/Request_Model.v
theories/Request_Props.v
theories/Request_History_Props.v
theories/Drift_Model.v
theories/Drift_Props.v
theories/Calm_Model.v
theories/Calm_Proofs.v
theories/Calm_Props.v
theories/Dry_Model.v
theories/Dry_Props.v
theories/Chained_Props.v
theories/Fall_Props.v
theories/Env_Model.v
theories/Env_Props.v
theories/Converge_Proofs.v
theories/Converge_Props.v
theories/Energy_Props.v
theories/Embed_Model.v
theories/Embed_Props.v
theories/Mirror_Props.v
theories/Code_Model.v
theories/Code_Props.v
theories/Mirror_Hull_Props.v
