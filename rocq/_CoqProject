-Q theories Verif
theories/Base.v
theories/Words.v
theories/ModesModel.v
theories/ModesSpec.v
theories/PaddingProofs.v
theories/ModesLoops.v
theories/EcbCbcProofs.v
theories/CfbOfbCtrProofs.v
theories/ModesExtra.v
theories/ModesApi.v
theories/AesTables.v
theories/AesModel.v
theories/AesSpec.v
theories/AesProofs.v
theories/AesLink.v
theories/AesKeys.v
theories/AesNiModel.v
theories/AesNiProofs.v
theories/AesApi.v
theories/Sm4Model.v
theories/Sm4Spec.v
theories/Sm4Proofs.v
theories/Sm4Api.v
theories/DesModel.v
theories/DesSpec.v
theories/DesProofs.v
theories/DesLink.v
theories/CipherDst.v
theories/BlockApi.v
theories/PropAesSm4.v
theories/PropModes.v
theories/PropDes.v
theories/HashModel.v
theories/HashSpec.v
theories/MdProofs.v
theories/WordW.v
theories/CompressProofs.v
theories/HashApi.v
theories/PropHash.v
theories/MacModel.v
theories/MacSpec.v
theories/MacProofs.v
theories/CmacProofs.v
theories/MacApi.v
theories/PropMac.v
theories/KeccakModel.v
theories/KeccakSpec.v
theories/KeccakProofs.v
theories/SpongeProofs.v
theories/Sha3Proofs.v
theories/KeccakBij.v
theories/KeccakApi.v
theories/PropKeccak.v
theories/ZucModel.v
theories/ZucSpec.v
theories/ZucProofs.v
theories/ZucApi.v
theories/PropZuc.v
theories/NumTheory.v
theories/RsaModel.v
theories/RsaProofs.v
theories/RsaEncModel.v
theories/RsaSpec.v
theories/RsaEncProofs.v
theories/RsaSigProofs.v
theories/RsaApi.v
theories/RsaCases.v
theories/PropRsa.v
theories/DsaModel.v
theories/DsaSpec.v
theories/DsaProofs.v
theories/PropDsa.v
theories/EcGroup.v
theories/Fp.v
theories/EllModel.v
theories/EllSpec.v
theories/EllProofs.v
theories/EllApi.v
theories/PropEc.v
theories/EcdsaModel.v
theories/EcdsaSpec.v
theories/EcdsaGroup.v
theories/EcdsaProofs.v
theories/PropEcdsa.v
theories/Pock.v
theories/Mont.v
theories/MontPow.v
theories/CurvePrimes.v
theories/MontEc.v
theories/CurveOrders.v
theories/CurveCount.v
theories/CurveRoot.v
theories/CurveRoots.v
theories/PropCurves.v
theories/CurveGroup.v
theories/PropOrder.v
theories/P224Model.v
theories/P224Spec.v
theories/LimbTac.v
theories/P224Large.v
theories/P224Reduce.v
theories/P224Conv.v
theories/P224Field.v
theories/P224Api.v
theories/PropP224.v
theories/P256Model.v
theories/P256Spec.v
theories/P256Limbs.v
theories/P256Red.v
theories/P256Mul.v
theories/P256Ops.v
theories/P256Digits.v
theories/P256Table.v
theories/P256Field.v
theories/P256Conv.v
theories/P256Debug.v
theories/P256Api.v
theories/P256Point.v
theories/PropP256.v
theories/PropP256Api.v
theories/P224Ecdsa.v
theories/PropP224Ecdsa.v
theories/IvModel.v
theories/PropIv.v
theories/WrapModel.v
theories/PropWrap.v
theories/RsaObjModel.v
theories/RsaObjProofs.v
theories/PropRsaObj.v
theories/InplaceModel.v
theories/InplaceProofs.v
theories/InplaceGroup.v
theories/InplaceScalar.v
theories/PropInplace.v
theories/ScratchModel.v
theories/ScratchSpec.v
theories/ScratchProofs.v
theories/PropScratch.v
theories/DsaObjModel.v
theories/DsaObjSpec.v
theories/DsaObjProofs.v
theories/PropDsaObj.v
theories/EcdsaObjModel.v
theories/EcdsaObjSpec.v
theories/PropEcdsaObj.v
theories/RsaSizeModel.v
theories/RsaSizeReal.v
theories/PropRsaSize.v
theories/PropModesErr.v
theories/PropDesWeak.v
theories/PropSigRel.v
theories/PropMd.v
theories/PropMacEq.v
theories/PropHostile.v
theories/PropHostilePk.v
theories/PropReuse.v
theories/PropSponge.v
theories/PropAgree.v
theories/PropSigKey.v
theories/PropRsaRel.v
theories/PropDsaRel.v
theories/PropPeriod.v
theories/PropOracle.v
theories/PropRsaFault.v
theories/PropMacRel.v
theories/PropNonce.v
theories/RsaTextModel.v
theories/PropOaepOracle.v
theories/PropRsaInterval.v
theories/PropZucBoth.v
theories/PropRsaShared.v
theories/PropJoin.v
