-Q theories Verif
theories/Base.v
theories/Field.v
theories/FieldQ.v
theories/Gadget.v
theories/Gadget2.v
theories/Gadget3.v
theories/M_Basepoint.v
theories/M_Bits.v
theories/M_Blake2b.v
theories/M_Circuit.v
theories/M_Eddsa.v
theories/M_Evm.v
theories/M_Export.v
theories/M_Groth.v
theories/M_Jubjub.v
theories/M_Lexer.v
theories/M_Lookup.v
theories/M_Merkle.v
theories/M_Mimc.v
theories/M_Montgomery.v
theories/M_OneOfN.v
theories/M_Padding.v
theories/M_Pinocchio.v
theories/M_Point.v
theories/M_Poseidon.v
theories/M_PoseidonParams.v
theories/M_PyEddsa.v
theories/M_PyEvmasm.v
theories/M_PyField.v
theories/M_PyJubjub.v
theories/M_PyMerkle.v
theories/M_PyPoseidon.v
theories/M_PyShamir.v
theories/M_PySqrt.v
theories/M_Sha256.v
theories/M_ShaGadget.v
theories/M_ShaGadgets.v
theories/M_SolJubjub.v
theories/M_SolMerkle.v
theories/M_SolMimc.v
theories/M_SolUtils.v
theories/M_SolVerifier.v
theories/M_Utils.v
theories/P_Basepoint.v
theories/P_Bits.v
theories/P_Blake2b.v
theories/P_Chain.v
theories/P_Circuit.v
theories/P_Circuit2.v
theories/P_Circuit3.v
theories/P_Commit.v
theories/P_Curve.v
theories/P_CurveOrder.v
theories/P_Eddsa.v
theories/P_Eddsa2.v
theories/P_Export.v
theories/P_Export2.v
theories/P_Export3.v
theories/P_ExportEx.v
theories/P_Fbm.v
theories/P_Float.v
theories/P_Groth.v
theories/P_Groth2.v
theories/P_Groth3.v
theories/P_Group.v
theories/P_JsonParser.v
theories/P_JubLeaf.v
theories/P_Lexer.v
theories/P_Lexer2.v
theories/P_Lookup.v
theories/P_Merkle.v
theories/P_Mimc.v
theories/P_Mont.v
theories/P_Order.v
theories/P_Padding.v
theories/P_Poseidon.v
theories/P_PyEvmasm.v
theories/P_PyIVs.v
theories/P_PyJacobi.v
theories/P_PyJacobi2.v
theories/P_PyJubjub.v
theories/P_PyMerkle.v
theories/P_PyMerkle2.v
theories/P_PyMont.v
theories/P_PyNaf.v
theories/P_PyPed.v
theories/P_PyPoint.v
theories/P_PyPosCon.v
theories/P_PyPoseidon.v
theories/P_PySqrt.v
theories/P_RealBases.v
theories/P_RealCerts.v
theories/P_ScalarMult.v
theories/P_Sha256.v
theories/P_Sha256b.v
theories/P_Sha256c.v
theories/P_ShaGadget.v
theories/P_ShaGadget2.v
theories/P_ShaGadget3.v
theories/P_ShaGadget4.v
theories/P_ShaGadget5.v
theories/P_ShaGadgets.v
theories/P_SolJubjub.v
theories/P_SolMerkle.v
theories/P_SolMerkle2.v
theories/P_SolMimc.v
theories/P_SolNaf.v
theories/P_SolUtils.v
theories/P_SolUtils2.v
theories/P_SolVerifier.v
theories/P_Subadd.v
theories/P_Utils.v
theories/P_Zcash.v
theories/P_Zcash2.v
theories/P_Zmul.v
theories/Pocklington.v
theories/Primes.v
theories/Prop_Basepoint.v
theories/Prop_Basic.v
theories/Prop_Blake2b.v
theories/Prop_Circuit.v
theories/Prop_Eddsa.v
theories/Prop_Export.v
theories/Prop_Groth.v
theories/Prop_Jubjub.v
theories/Prop_Lexer.v
theories/Prop_Merkle.v
theories/Prop_Mimc.v
theories/Prop_Mont.v
theories/Prop_OneOfN.v
theories/Prop_Poseidon.v
theories/Prop_PyEddsa.v
theories/Prop_PyEvmasm.v
theories/Prop_PyField.v
theories/Prop_PyJubjub.v
theories/Prop_PyMerkle.v
theories/Prop_PyPoseidon.v
theories/Prop_PySqrt.v
theories/Prop_Sha256.v
theories/Prop_ShaGadget.v
theories/Prop_SolJubjub.v
theories/Prop_SolMerkle.v
theories/Prop_SolVerifier.v
theories/Prop_Utils.v
theories/Q_Basepoint.v
theories/Q_Basic.v
theories/Q_Blake2b.v
theories/Q_Circuit.v
theories/Q_Circuit2.v
theories/Q_Circuit3.v
theories/Q_CurveOrder.v
theories/Q_Eddsa.v
theories/Q_Export.v
theories/Q_Groth.v
theories/Q_Groth2.v
theories/Q_Jubjub.v
theories/Q_Lexer.v
theories/Q_Merkle.v
theories/Q_Mimc.v
theories/Q_Mont.v
theories/Q_OneOfN.v
theories/Q_Padding.v
theories/Q_Pinocchio.v
theories/Q_Poseidon.v
theories/Q_PoseidonParams.v
theories/Q_PyEddsa.v
theories/Q_PyEvmasm.v
theories/Q_PyField.v
theories/Q_PyHash.v
theories/Q_PyJubjub.v
theories/Q_PyLabels.v
theories/Q_PyMerkle.v
theories/Q_PyMimc.v
theories/Q_PyPosCon.v
theories/Q_PyPoseidon.v
theories/Q_PyShamir.v
theories/Q_PySqrt.v
theories/Q_RealBases.v
theories/Q_Sha256.v
theories/Q_ShaGadget.v
theories/Q_ShaGadget2.v
theories/Q_ShaGadget3.v
theories/Q_Shamir.v
theories/Q_SolJubjub.v
theories/Q_SolMerkle.v
theories/Q_SolMerkle2.v
theories/Q_SolMimc.v
theories/Q_SolUtils.v
theories/Q_SolVerifier.v
theories/Q_Verify.v
theories/R1CS.v
theories/R1CSFacts.v
theories/Spec_Basepoint.v
theories/Spec_Blake2b.v
theories/Spec_Circuit.v
theories/Spec_Curve.v
theories/Spec_CurveOrder.v
theories/Spec_Eddsa.v
theories/Spec_Export.v
theories/Spec_Groth.v
theories/Spec_Keccak.v
theories/Spec_Lexer.v
theories/Spec_Merkle.v
theories/Spec_Mimc.v
theories/Spec_Mont.v
theories/Spec_Padding.v
theories/Spec_Poseidon.v
theories/Spec_PoseidonParams.v
theories/Spec_PyEddsa.v
theories/Spec_PyEvmasm.v
theories/Spec_PyField.v
theories/Spec_PyJubjub.v
theories/Spec_PyMerkle.v
theories/Spec_PyShamir.v
theories/Spec_PySqrt.v
theories/Spec_Sha256.v
theories/Spec_ShaGadget.v
theories/Spec_SolJubjub.v
theories/Spec_SolMerkle.v
theories/Spec_SolUtils.v
theories/Spec_SolVerifier.v
theories/Spec_Utils.v
