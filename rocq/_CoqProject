-Q theories Verif
theories/Base.v
theories/Dbl.v
theories/Scalar.v
theories/Model_TauRec.v
theories/Model_Checks.v
theories/Model_Select.v
theories/Model_Strings.v
theories/Model_Transform.v
theories/Model_Interp.v
theories/Model_Recon.v
theories/BaseFacts.v
theories/DblFacts.v
theories/PiBounds.v
theories/Spec_Tau.v
theories/Ref_Tmpl.v
theories/Proof_Checks.v
theories/Spec_Ops.v
theories/Proof_Sticky.v
theories/Spec_Strings.v
theories/Proof_Strings.v
theories/DblArith.v
theories/Spec_Select.v
theories/Proof_Select.v
theories/Ex_Tau.v
theories/Properties_Checks.v
theories/Properties_Select.v
theories/Spec_Safety.v
theories/Proof_Safety.v
theories/Proof_Drivers.v
theories/Proof_SafeDbl.v
theories/Proof_Sched.v
theories/Spec_Fft.v
theories/Proof_Fft.v
theories/Proof_Dft.v
theories/Ex_Fft.v
theories/Properties_Fft.v
theories/Proof_Safe2.v
theories/Spec_Pipe.v
theories/Proof_Pipe.v
theories/Proof_Pipe2.v
theories/Properties_Safety.v
theories/Properties_Pipe.v
theories/Model_Py.v
theories/Spec_Py.v
theories/Proof_Py.v
theories/Proof_Py2.v
theories/Proof_Py3.v
theories/Properties_Py.v
theories/Spec_Recon.v
theories/Proof_Recon.v
theories/Proof_Recon2.v
theories/Proof_Recon3.v
theories/Proof_Recon4.v
theories/Properties_Recon.v
theories/Spec_Real.v
theories/Proof_Linear.v
theories/Proof_Blind.v
theories/Proof_Linear2.v
theories/Proof_Real.v
theories/Proof_Real2.v
theories/Proof_Real3.v
theories/Proof_Real4.v
theories/Proof_Real5.v
theories/Spec_Kernel.v
theories/Proof_Kernel.v
theories/Ex_Real.v
theories/Properties_Real.v
theories/Model_Misc.v
theories/Spec_Misc.v
theories/Proof_Misc.v
theories/Properties_Misc.v
theories/Model_Heap.v
theories/Model_Csv.v
theories/Model_CsvData.v
theories/Proof_Heap.v
theories/Proof_CsvOwn.v
theories/Proof_CsvOwn2.v
theories/Proof_CsvOwn3.v
theories/Spec_Csv.v
theories/Proof_CsvText.v
theories/Proof_Csv.v
theories/Ref_Csv.v
theories/Proof_Csv2.v
theories/Spec_CsvData.v
theories/Proof_CsvVal.v
theories/Proof_CsvVal2.v
theories/Proof_CsvVal3.v
theories/Proof_CsvVal4.v
theories/Proof_CsvVal5.v
theories/Ex_Csv.v
theories/Properties_Csv.v
theories/Model_Create.v
theories/Spec_Create.v
theories/Proof_Create.v
theories/Proof_Create2.v
theories/Proof_Create3.v
theories/Proof_Create4.v
theories/Properties_Create.v
theories/Model_PyCsv.v
theories/Spec_PyCsv.v
theories/Proof_PyCsv.v
theories/Proof_PyCsv2.v
theories/Properties_PyCsv.v
theories/Spec_Exact.v
theories/Proof_Exact.v
theories/Proof_Exact2.v
theories/Ex_Exact.v
theories/Properties_Exact.v
theories/Model_Geometry.v
theories/Spec_Geometry.v
theories/Proof_Geometry.v
theories/Properties_Geometry.v
theories/Model_Mem.v
theories/Spec_Mem.v
theories/Proof_Mem.v
theories/Proof_Mem2.v
theories/Proof_Mem3.v
theories/Proof_Mem4.v
theories/Proof_Mem5.v
theories/Properties_Mem.v
theories/Model_Write.v
theories/Spec_Write.v
theories/Proof_Write.v
theories/Proof_Write2.v
theories/Proof_Write3.v
theories/Ref_Write.v
theories/Properties_Write.v
theories/Model_Label.v
theories/Spec_Label.v
theories/Proof_Label.v
theories/Proof_Label2.v
theories/Proof_Label3.v
theories/Ref_Label.v
theories/Properties_Label.v
theories/Model_Pool.v
theories/Spec_Pool.v
theories/Proof_Pool.v
theories/Properties_Pool.v
theories/Model_Time.v
theories/Spec_Time.v
theories/Proof_Time.v
theories/Proof_Time2.v
theories/Ref_Time.v
theories/Properties_Time.v
theories/Model_Chord.v
theories/Spec_Chord.v
theories/Proof_Chord.v
theories/Proof_Chord2.v
theories/Properties_Chord.v
theories/Model_Free.v
theories/Spec_Free.v
theories/Proof_Free.v
theories/Proof_Free2.v
theories/Proof_Free3.v
theories/Properties_Free.v
theories/Model_Frame.v
theories/Spec_Frame.v
theories/Proof_Frame.v
theories/Proof_Frame2.v
theories/Properties_Frame.v
theories/Model_Resample.v
theories/Spec_Resample.v
theories/Proof_Resample.v
theories/Proof_Resample2.v
theories/Proof_Resample3.v
theories/Ref_Resample.v
theories/Properties_Resample.v
theories/Model_Dlp.v
theories/Spec_Dlp.v
theories/Proof_Dlp.v
theories/Proof_Dlp2.v
theories/Ref_Dlp.v
theories/Properties_Dlp.v
theories/Model_Rsr.v
theories/Spec_Rsr.v
theories/Proof_Rsr.v
theories/Proof_Rsr2.v
theories/Ref_Rsr.v
theories/Properties_Rsr.v
theories/Model_Sky.v
theories/Spec_Sky.v
theories/Proof_Sky.v
theories/Proof_Sky2.v
theories/Ref_Sky.v
theories/Properties_Sky.v
theories/Model_Offset.v
theories/Spec_Offset.v
theories/Proof_Offset.v
theories/Proof_Offset2.v
theories/Properties_Offset.v
theories/Model_Mask.v
theories/Spec_Mask.v
theories/Proof_Mask.v
theories/Properties_Mask.v
theories/Model_Power.v
theories/Spec_Power.v
theories/Proof_Power.v
theories/Proof_Power2.v
theories/Properties_Power.v
theories/Model_Typed.v
theories/Spec_Typed.v
theories/Proof_Typed.v
theories/Properties_Typed.v
theories/Model_Down.v
theories/Spec_Down.v
theories/Proof_Down.v
theories/Properties_Down.v
theories/Model_Order.v
theories/Spec_Order.v
theories/Proof_Order.v
theories/Properties_Order.v
theories/Model_Jump.v
theories/Spec_Jump.v
theories/Proof_Jump.v
theories/Properties_Jump.v
