-Q theories Verif

theories/Base.v
theories/P_Base.v
theories/M_Int.v
theories/P_Int.v
theories/M_MathUtil.v
theories/P_MathUtil.v
theories/P_Mod.v
theories/S_Int.v
theories/T_Int.v
theories/M_Seq.v
theories/M_Bytes.v
theories/M_Vec.v
theories/P_Seq.v
theories/P_Bytes.v
theories/P_Vec.v
theories/S_Seq.v
theories/T_Seq.v
theories/M_BigInt.v
theories/M_NatMod.v
theories/M_Index.v
theories/M_Usize.v
theories/P_Prime.v
theories/P_BigInt.v
theories/S_BigInt.v
theories/T_BigInt.v
theories/M_Poly.v
theories/P_PolyRing.v
theories/P_Poly.v
theories/P_PolyInv.v
theories/S_Poly.v
theories/T_Poly.v
theories/M_ChaCha.v
theories/P_Word.v
theories/P_Stream.v
theories/S_ChaCha.v
theories/P_ChaCha.v
theories/P_Poly1305.v
theories/T_ChaCha.v
theories/M_AES.v
theories/S_GF2.v
theories/P_GF2.v
theories/P_GF128.v
theories/S_AES.v
theories/S_AESArgs.v
theories/S_GCM.v
theories/P_AES.v
theories/P_AESArgs.v
theories/P_GCM.v
theories/P_GCMBits.v
theories/T_AES.v
theories/M_SHA2.v
theories/S_SHA2.v
theories/P_SHA2.v
theories/P_Float.v
theories/P_HMAC.v
theories/T_SHA2.v
theories/M_Keccak.v
theories/S_Keccak.v
theories/P_Keccak.v
theories/P_Sponge.v
theories/P_KeccakBij.v
theories/T_Keccak.v
theories/M_Blake2.v
theories/S_Blake2.v
theories/P_Blake2.v
theories/T_Blake2.v
theories/M_X25519.v
theories/S_Curve.v
theories/P_Curve.v
theories/P_Square.v
theories/S_X25519.v
theories/P_X25519.v
theories/P_X25519M.v
theories/P_X25519D.v
theories/T_X25519.v
theories/M_P256.v
theories/P_Jacobian.v
theories/S_P256.v
theories/P_P256.v
theories/T_P256.v
theories/M_Dalek.v
theories/S_Dalek.v
theories/P_Dalek.v
theories/T_Dalek.v
theories/M_ChachaEx.v
theories/P_ChachaEx.v
theories/T_ChachaEx.v
theories/P_Group.v
theories/P_Order.v
theories/P_OrderP256.v
theories/T_OrderP256.v
theories/P_Order25519.v
theories/T_Order25519.v
theories/M_Numeric.v
theories/T_Numeric.v
theories/P_Roots.v
theories/T_Mac.v
theories/P_GFField.v
theories/T_GHash.v
theories/T_P256DH.v
theories/P_P256Any.v
theories/T_P256Any.v
theories/S_P256Node.v
theories/P_P256Node.v
theories/T_P256Node.v
theories/T_PolyType.v
theories/T_AEAD.v
theories/T_Extend.v
theories/T_Types.v
theories/M_Leak.v
theories/T_Leak.v
theories/T_Collide.v
theories/T_SpongeCol.v
theories/T_Reuse.v
theories/M_Fmt.v
theories/T_Fmt.v
theories/T_Exact.v
theories/M_Leak2.v
theories/T_Leak2.v
theories/T_Exact2.v
theories/M_Release.v
theories/P_Release.v
theories/T_Release.v
theories/T_Neg.v
theories/T_PolyPublic.v
theories/M_ReleasePoly.v
theories/M_ReleaseSpecs.v
theories/P_ReleaseSpecs.v
theories/T_ReleaseSpecs.v
theories/T_ReleasePoly.v
theories/T_PolySigned.v
theories/T_TwoKeys.v
theories/P_SumSet.v
theories/T_TwoKeys2.v
theories/T_Interop.v
theories/T_Index.v
theories/T_Usize.v
theories/T_GCMStd.v
theories/T_AESArgs.v
theories/T_IntDiv.v
theories/T_NatExpr.v
theories/T_HmacKeys.v
