-Q theories Verif
theories/Base.v
theories/LinAlg.v
theories/Constants.v
theories/M_Validate.v
theories/M_StructUtils.v
theories/M_Symmetry.v
theories/M_Reference.v
theories/M_Interp.v
theories/M_Art.v
theories/M_Spectrum.v
theories/M_Dynamics.v
theories/M_Text.v
theories/M_Poscar.v
theories/M_Files.v
theories/M_Displace.v
theories/S_Lattice.v
theories/S_Vec.v
theories/S_Symmetry.v
theories/S_Equivalent.v
theories/S_Interp.v
theories/S_Art.v
theories/S_Spectrum.v
theories/S_Text.v
theories/S_Files.v
theories/S_Displace.v
theories/P_StructUtils.v
theories/P_Minimal.v
theories/P_Reference.v
theories/P_Reference2.v
theories/P_Symmetry.v
theories/P_Equivalent.v
theories/P_Equiv2.v
theories/P_Equiv3.v
theories/P_EquivTotal.v
theories/P_StructFinal.v
theories/P_Examples1.v
theories/P_Interp.v
theories/P_Interp2.v
theories/P_InterpEval.v
theories/P_Interp3.v
theories/P_Interp4.v
theories/P_Interp5.v
theories/P_Interp6.v
theories/P_Interp7.v
theories/P_InterpFinal.v
theories/P_Examples2.v
theories/P_Art.v
theories/P_Art2.v
theories/P_Examples3.v
theories/P_Signal.v
theories/P_Spectrum.v
theories/P_Dynamics.v
theories/P_Dynamics2.v
theories/P_Convolve.v
theories/P_Convolve2.v
theories/P_Examples4.v
theories/P_Text.v
theories/P_Poscar.v
theories/P_Poscar2.v
theories/P_Poscar3.v
theories/P_Poscar4.v
theories/P_Files.v
theories/P_Displace.v
theories/P_Displace2.v
theories/P_Examples5.v
theories/P_Workflow.v
theories/P_Examples6.v
theories/M_Outcar.v
theories/S_Outcar.v
theories/P_Outcar.v
theories/P_Outcar2.v
theories/P_Outcar3.v
theories/M_Vasprun.v
theories/S_Vasprun.v
theories/P_Vasprun.v
theories/P_Examples7.v
theories/M_Dataset.v
theories/S_Dataset.v
theories/P_Dataset.v
theories/P_Dataset2.v
theories/P_Dataset3.v
theories/P_Examples8.v
theories/M_Generic.v
theories/S_Generic.v
theories/P_Generic.v
theories/P_Generic2.v
theories/P_Examples9.v
theories/M_Torch.v
theories/S_Torch.v
theories/P_Torch.v
theories/P_Torch2.v
theories/M_Gnn.v
theories/S_Gnn.v
theories/P_Gnn.v
theories/P_Gnn2.v
theories/P_Gnn3.v
theories/P_Gnn4.v
theories/S_Ends.v
theories/P_Ends.v
theories/P_Examples10.v
theories/P_Examples11.v
theories/M_Float.v
theories/S_Float.v
theories/P_Float.v
theories/P_Float2.v
theories/P_Float3.v
theories/P_Float4.v
theories/M_Alias.v
theories/S_Alias.v
theories/P_Alias.v
theories/P_Alias2.v
theories/P_Alias3.v
theories/P_Alias4.v
theories/S_Edge.v
theories/P_Edge.v
theories/M_Train.v
theories/S_Train.v
theories/P_Train.v
theories/P_Train2.v
theories/P_Train3.v
theories/P_Train4.v
theories/P_Timestep.v
theories/S_Images.v
theories/P_Images.v
theories/P_Images2.v
theories/S_GnnNew.v
theories/P_GnnNew.v
theories/S_Response.v
theories/P_Response.v
theories/P_Response2.v
theories/P_Response3.v
theories/P_Examples12.v
theories/M_Shared.v
theories/S_Shared.v
theories/P_Shared.v
theories/P_Shared2.v
theories/P_Shared3.v
theories/P_Shared4.v
theories/P_Shared5.v
theories/P_Examples13.v
theories/S_Anharmonic.v
theories/P_Anharmonic.v
theories/P_Anharmonic2.v
theories/P_Anharmonic3.v
theories/P_Examples14.v
theories/S_Harmonic.v
theories/P_Harmonic.v
theories/P_Harmonic2.v
theories/P_Harmonic3.v
theories/P_Harmonic4.v
theories/S_Relabel.v
theories/P_Relabel.v
theories/P_Relabel2.v
theories/P_Relabel3.v
theories/P_Relabel4.v
theories/P_Examples15.v
theories/S_Order.v
theories/P_Order.v
theories/P_Order2.v
theories/P_Order3.v
theories/P_Order4.v
theories/P_Order5.v
theories/P_Examples16.v
theories/S_Ortho.v
theories/P_Ortho.v
theories/P_Examples17.v
theories/S_Atoms.v
theories/P_Atoms.v
theories/P_Atoms2.v
theories/P_Atoms3.v
theories/P_Atoms4.v
theories/P_Atoms5.v
theories/P_Examples18.v
theories/M_Pymatgen.v
theories/S_Pymatgen.v
theories/P_Pymatgen.v
theories/P_Pymatgen2.v
theories/S_Turned.v
theories/P_Turned.v
theories/P_Turned2.v
theories/P_Turned3.v
theories/P_Examples19.v
theories/P_Offset.v
theories/P_Edge2.v
theories/M_Repr.v
theories/S_Repr.v
theories/P_Repr.v
theories/P_Repr2.v
theories/P_Gauss.v
theories/P_Gauss2.v
theories/M_Args.v
theories/S_Args.v
theories/P_Args.v
theories/P_Args2.v
theories/P_Args3.v
theories/P_Args4.v
theories/M_Special.v
theories/S_Special.v
theories/P_Special.v
theories/P_Special2.v
theories/P_Special3.v
theories/P_Special4.v
theories/P_Special5.v
theories/P_Special6.v
theories/P_Special7.v
theories/P_Workflow2.v
theories/P_Examples20.v
theories/S_Cut.v
theories/P_Cut.v
theories/P_Cut2.v
theories/P_Cut3.v
theories/S_Literals.v
theories/P_Literals.v
theories/P_ExamplesLit.v
theories/M_Arrays.v
theories/S_Arrays.v
theories/P_Arrays.v
theories/M_Double.v
theories/S_Double.v
theories/P_Double.v
theories/P_Double2.v
theories/P_Double3.v
theories/M_Values.v
theories/S_Values.v
theories/P_Values.v
theories/S_Scaling.v
theories/P_Scaling.v
theories/P_Examples21.v
theories/M_Bytes.v
theories/S_Bytes.v
theories/P_Bytes.v
theories/P_Bytes2.v
theories/P_Bytes3.v
theories/P_Examples22.v
theories/S_Readings.v
theories/P_Readings.v
theories/S_Network.v
theories/P_Network.v
theories/P_Network2.v
theories/P_Examples23.v
theories/M_BytesOutcar.v
theories/P_BytesOutcar.v
theories/P_BytesOutcar2.v
theories/P_BytesOutcar3.v
theories/M_Int32.v
theories/P_Int32.v
theories/S_Accept.v
theories/P_Accept.v
theories/S_BytesOutcar.v
theories/P_BytesOutcar4.v
theories/P_BytesOutcar5.v
theories/P_BytesPoscar.v
theories/P_AliasSlice.v
theories/P_Train5.v
theories/P_BytesOutcar6.v
theories/M_GenericBytes.v
theories/S_GenericBytes.v
theories/P_GenericBytes.v
theories/P_GenericBytes2.v
theories/P_BytesXdatcar.v
theories/P_BytesXdatcar2.v
theories/P_Special8.v
theories/M_TrainLoss.v
theories/S_TrainLoss.v
theories/P_TrainLoss.v
theories/P_TrainLoss2.v
theories/M_FloatNumbers.v
theories/P_FloatNumbers.v
theories/S_FloatNumbers.v
theories/M_Running.v
theories/S_Running.v
theories/P_Running.v
theories/P_Running2.v
theories/P_Running3.v
theories/C_Struct.v
theories/C_Reference.v
theories/C_Interp.v
theories/C_Art.v
theories/C_Spectrum.v
theories/C_Files.v
theories/C_Workflow.v
theories/C_Outcar.v
theories/C_Vasprun.v
theories/C_Dataset.v
theories/C_Generic.v
theories/C_Torch.v
theories/C_Gnn.v
theories/C_Ends.v
theories/C_Float.v
theories/C_Alias.v
theories/C_Edge.v
theories/C_Train.v
theories/C_Images.v
theories/C_GnnNew.v
theories/C_Response.v
theories/C_Shared.v
theories/C_Anharmonic.v
theories/C_Harmonic.v
theories/C_Relabel.v
theories/C_Order.v
theories/C_Ortho.v
theories/C_Atoms.v
theories/C_Pymatgen.v
theories/C_Turned.v
theories/C_Repr.v
theories/C_Args.v
theories/C_Special.v
theories/P_Outcar4.v
theories/P_Examples7b.v
theories/C_Literals.v
theories/C_Arrays.v
theories/C_Double.v
theories/C_Values.v
theories/C_Scaling.v
theories/C_Bytes.v
theories/C_Network.v
theories/C_BytesOutcar.v
theories/C_Accept.v
theories/C_BytesOutcar2.v
theories/C_BytesPoscar.v
theories/C_AliasSlice.v
theories/C_GenericBytes.v
theories/C_BytesXdatcar.v
theories/C_TrainLoss.v
theories/C_FloatNumbers.v
theories/C_Running.v
