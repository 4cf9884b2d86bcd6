-Q theories Verif
theories/Py.v
theories/PyStr.v
theories/PyNum.v
theories/Spec.v
theories/M_Num.v
theories/M_Grid.v
theories/D_Elements.v
theories/D_Densities.v
theories/D_Xrmac.v
theories/M_Readers.v
theories/M_CrossSection.v
theories/S_CrossSection.v
theories/L_CrossSection.v
theories/L_Grid.v
theories/L_CrossSection2.v
theories/P_CrossSection.v
theories/M_Darboux.v
theories/M_Quad.v
theories/S_Quad.v
theories/L_RInt.v
theories/L_Darboux.v
theories/L_Quad.v
theories/L_Integration.v
theories/P_Integration.v
theories/M_Heap.v
theories/S_Heap.v
theories/L_Heap.v
theories/P_Heap.v
theories/D_Debye.v
theories/M_Thermal.v
theories/S_Thermal.v
theories/L_Thermal.v
theories/L_Debye.v
theories/P_Thermal.v
theories/M_Constituents.v
theories/M_Dist.v
theories/M_Resonance.v
theories/L_Constituents.v
theories/L_Gauss.v
theories/S_Resonance.v
theories/L_Dist.v
theories/P_Constituents.v
theories/L_Resonance.v
theories/L_Resonance2.v
theories/L_Resonance3.v
theories/L_Resonance4.v
theories/L_Resonance5.v
theories/L_Resonance6.v
theories/P_Resonance.v
theories/M_PseudoVoigt.v
theories/S_PseudoVoigt.v
theories/L_Newton.v
theories/L_Newton2.v
theories/L_PseudoVoigt.v
theories/L_PseudoVoigt2.v
theories/L_PseudoVoigt3.v
theories/L_PseudoVoigt4.v
theories/L_PseudoVoigt5.v
theories/L_PseudoVoigt6.v
theories/L_PseudoVoigt7.v
theories/P_PseudoVoigt.v
theories/M_KleinNishina.v
theories/S_KleinNishina.v
theories/L_KleinNishina.v
theories/L_KleinNishina2.v
theories/L_KleinNishina3.v
theories/P_KleinNishina.v
theories/S_Xrmac.v
theories/M_Xrmac.v
theories/L_Xrmac.v
theories/L_Xrmac2.v
theories/P_Xrmac.v
theories/S_Readers.v
theories/L_Str.v
theories/L_XrmacReader.v
theories/P_XrmacReader.v
theories/L_Density.v
theories/L_Density2.v
theories/S_Elements.v
theories/L_DensityData.v
theories/P_Density.v
theories/L_Nist.v
theories/L_Nist2.v
theories/L_Nist3.v
theories/L_NistData.v
theories/L_Nist4.v
theories/P_Nist.v
theories/L_Natural.v
theories/P_Natural.v
theories/S_Decimal.v
theories/L_Decimal.v
theories/S_Natural.v
theories/L_NatData.v
theories/L_NatData2.v
theories/P_XrmacTables.v
theories/M_XrmacTables.v
theories/S_XrmacTables.v
theories/L_XrmacTables.v
theories/L_XrmacTables2.v
theories/L_XrmacData.v
theories/L_XrmacSupplied.v
theories/L_Axis.v
theories/L_Convolution.v
theories/S_Voigt.v
theories/L_Voigt.v
theories/L_Voigt2.v
theories/P_Voigt.v
theories/P_Sums.v
theories/L_Darboux2.v
theories/S_Sums.v
theories/L_Sums.v
theories/L_Sums2.v
theories/L_Sums3.v
theories/L_Sums4.v
theories/L_Coverage.v
theories/P_Coverage.v
theories/L_Doppler.v
theories/L_Doppler2.v
theories/P_Doppler.v
theories/M_Objects.v
theories/S_Objects.v
theories/L_Objects.v
theories/L_Objects2.v
theories/L_Objects3.v
theories/L_Objects4.v
theories/P_Objects.v
theories/M_Float.v
theories/S_Float.v
theories/L_Float.v
theories/L_Float2.v
theories/L_Float3.v
theories/L_Float4.v
theories/L_Float5.v
theories/L_Float6.v
theories/P_Float.v
theories/M_Float2.v
theories/S_Float2.v
theories/L_Float7.v
theories/L_Float8.v
theories/P_Float2.v
theories/S_Xrmac2.v
theories/L_Xrmac3.v
theories/L_Xrmac4.v
theories/P_Xrmac2.v
theories/L_Newton3.v
theories/L_PseudoVoigt8.v
theories/M_Float3.v
theories/S_Float3.v
theories/L_FNewton.v
theories/L_FNewton2.v
theories/L_FNewton3.v
theories/L_FNewton4.v
theories/P_Float3.v
theories/L_PseudoVoigt9.v
theories/M_Float4.v
theories/S_Float4.v
theories/L_Float9.v
theories/L_Float10.v
theories/L_Float11.v
theories/L_Float12.v
theories/P_Float4.v
theories/M_Float5.v
theories/S_Float5.v
theories/L_Float13.v
theories/L_Float14.v
theories/L_Float15.v
theories/L_Float16.v
theories/L_Float17.v
theories/L_Float18.v
theories/L_Float19.v
theories/P_Float5.v
theories/M_Float6.v
theories/S_Float6.v
theories/L_Float20.v
theories/L_Float21.v
theories/L_Float22.v
theories/L_Float23.v
theories/P_Float6.v
theories/M_Float7.v
theories/S_Float7.v
theories/L_Float24.v
theories/L_Float25.v
theories/L_Float26.v
theories/P_Float7.v
theories/L_FNewton5.v
theories/L_FNewton6.v
theories/M_Float8.v
theories/S_Float8.v
theories/L_Float27.v
theories/L_Float28.v
theories/L_Float29.v
theories/L_Float30.v
theories/L_Float31.v
theories/L_Float32.v
theories/L_Float33.v
theories/P_Float8.v
theories/P_Reject.v
theories/S_Reject.v
theories/L_Reject.v
theories/L_Natural2.v
theories/L_Ieee14.v
theories/P_Ieee.v
theories/L_Ieee9.v
theories/L_Ieee8.v
theories/L_Ieee7.v
theories/L_Ieee6.v
theories/L_Ieee5.v
theories/L_Ieee4.v
theories/L_Ieee3.v
theories/L_Ieee2.v
theories/L_Ieee.v
theories/S_Ieee.v
theories/M_Ieee2.v
theories/M_Ieee.v
theories/S_Mixture.v
theories/L_Mixture.v
theories/L_Compton.v
theories/S_Incomplete.v
theories/L_Incomplete.v
theories/P_Mixture.v
theories/P_Compton.v
theories/P_Incomplete.v
theories/M_Notebook.v
theories/S_Notebook.v
theories/L_Notebook.v
theories/L_Notebook2.v
theories/L_Notebook3.v
theories/L_Notebook4.v
theories/L_Notebook5.v
theories/L_Notebook6.v
theories/L_Notebook7.v
theories/P_Notebook.v
theories/M_Ieee3.v
theories/S_Ieee3.v
theories/L_Ieee10.v
theories/L_Ieee11.v
theories/L_Ieee12.v
theories/L_Ieee13.v
theories/P_Ieee2.v
theories/M_Array.v
theories/S_Array.v
theories/L_Array.v
theories/L_Array2.v
theories/L_Array3.v
theories/P_Array.v
theories/M_Array2.v
theories/S_Array2.v
theories/L_Array4.v
theories/L_Array5.v
theories/L_Array6.v
theories/P_Array2.v
theories/M_Float9.v
theories/S_Float9.v
theories/L_Float34.v
theories/L_Float35.v
theories/L_Float36.v
theories/L_Float37.v
theories/L_Float38.v
theories/L_Float39.v
theories/L_Float40.v
theories/P_Float9.v
theories/M_Float10.v
theories/S_Float10.v
theories/L_Float41.v
theories/L_Float42.v
theories/L_Float43.v
theories/P_Float10.v
theories/M_Float11.v
theories/S_Float11.v
theories/L_Float44.v
theories/L_Float45.v
theories/L_Float46.v
theories/P_Float11.v
theories/M_Ieee4.v
theories/S_Ieee4.v
theories/L_Ieee15.v
theories/L_Ieee16.v
theories/L_Ieee17.v
theories/L_Ieee18.v
theories/L_Ieee19.v
theories/P_Ieee4.v
theories/M_Ieee5.v
theories/S_Ieee5.v
theories/L_Ieee20.v
theories/L_Ieee21.v
theories/M_Ieee6.v
theories/S_Ieee6.v
theories/L_Ieee22.v
theories/L_Ieee23.v
theories/P_Ieee5.v
theories/S_Float12.v
theories/L_Float47.v
theories/L_Float48.v
theories/L_Float49.v
theories/P_Float12.v
theories/P_Ieee6.v
theories/M_Float12.v
theories/S_Float13.v
theories/L_Float50.v
theories/L_Float51.v
theories/L_Float52.v
theories/L_Float53.v
theories/P_Float13.v
theories/M_Ieee7.v
theories/S_Ieee7.v
theories/L_Ieee24.v
theories/L_Ieee25.v
theories/L_Ieee26.v
theories/L_Ieee27.v
theories/L_Ieee28.v
theories/L_Ieee29.v
theories/L_Ieee30.v
theories/L_Ieee31.v
theories/L_Ieee32.v
theories/L_Ieee33.v
theories/P_Ieee7.v
theories/M_Ieee8.v
theories/S_Ieee8.v
theories/L_Ieee34.v
theories/P_Ieee8.v
theories/S_Float14.v
theories/L_Float54.v
theories/L_Ieee35.v
theories/P_Float14.v
theories/M_Float13.v
theories/S_Float15.v
theories/L_Float55.v
theories/P_Float15.v
theories/M_Ieee9.v
theories/S_Ieee9.v
theories/L_Ieee36.v
theories/L_Ieee37.v
theories/L_Ieee38.v
theories/P_Ieee9.v
theories/M_Float14.v
theories/S_Float16.v
theories/L_Float56.v
theories/L_Float57.v
theories/L_Float58.v
theories/P_Float16.v
