-Q theories Verif
theories/Bytes.v
theories/Crypto.v
theories/CryptoTests.v
theories/Spec.v
theories/MFmt.v
theories/MPercent.v
theories/MSign.v
theories/MSerializer.v
theories/MRequest.v
theories/MCredentials.v
theories/MAuth.v
theories/MBuilder.v
theories/ModelTests.v
theories/ModelTests2.v
theories/DeriveTests.v
theories/LBytes.v
theories/LFmt.v
theories/LPercent.v
theories/SpecCalls.v
theories/LTrace.v
theories/LCrypto.v
theories/SpecAuth.v
theories/LAuth.v
theories/LSign.v
theories/SpecBuild.v
theories/LBuild.v
theories/SpecForm.v
theories/LForm.v
theories/LBase.v
theories/SpecFmt.v
theories/SpecCalls2.v
theories/LFmt2.v
theories/LReq.v
theories/LReq2.v
theories/LPanic.v
theories/LTop.v
theories/SpecParams.v
theories/LParams.v
theories/SpecServer.v
theories/SpecSign.v
theories/LBase2.v
theories/LServer.v
theories/LReveal.v
theories/LAny.v
theories/LBuf.v
theories/LSim.v
theories/SpecPanic.v
theories/LCheck.v
theories/MDebug.v
theories/SpecBuilder.v
theories/PropsRequest.v
theories/PropsParams.v
theories/PropsForm.v
theories/PropsPercent.v
theories/PropsServer.v
theories/PropsHeader.v
theories/PropsSign.v
theories/PropsPanic.v
theories/PropsBuilder.v
theories/PropsCred.v
theories/MSerde.v
theories/PropsSerde.v
theories/MDerive.v
theories/MTypes.v
theories/SpecDerive.v
theories/LDerive.v
theories/PropsDerive.v
theories/PropsTypes.v
theories/PropsExact.v
theories/MHygiene.v
theories/LHygiene.v
theories/PropsHygiene.v
theories/MHttp.v
theories/MServer.v
theories/MClient.v
theories/SpecHttp.v
theories/LHttp.v
theories/LText.v
theories/LGrammar.v
theories/SpecExample.v
theories/LExample.v
theories/LExample2.v
theories/LExample3.v
theories/PropsExample.v
theories/SpecServer2.v
theories/SpecTests.v
theories/PropsServer2.v
theories/PropsKeys.v
theories/Rsa.v
theories/LRsa.v
theories/RsaTests.v
theories/PropsRsa.v
theories/PropsForge.v
theories/PropsCollide.v
theories/SpecReplay.v
theories/PropsReplay.v
theories/SpecLimit.v
theories/LBound.v
theories/PropsLimit.v
theories/PropsChance.v
theories/PropsDerived.v
theories/PropsPlain.v
theories/MJs.v
theories/LJs.v
theories/PropsNonce.v
theories/PropsJs.v
theories/PropsStatus.v
theories/PropsConfig.v
theories/PropsClient.v
theories/PropsEnv.v
theories/PropsCrate.v
theories/PropsSecret.v
theories/PropsStruct.v
theories/PropsReaders.v
theories/PropsSize.v
theories/SpecManual.v
theories/PropsManual.v
theories/SpecResign.v
theories/PropsResign.v
theories/PropsMove.v
theories/SpecWindow.v
theories/PropsWindow.v
theories/SpecOrder.v
theories/PropsOrder.v
theories/PropsConfuse.v
theories/SpecUri.v
theories/PropsUri.v
theories/SpecValid.v
theories/PropsValid.v
theories/PropsMedia.v
