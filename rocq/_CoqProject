-Q theories Verif
theories/Base.v
theories/Hybrid.v
theories/HybridNF.v
theories/HybridSpec.v
theories/HybridProofs.v
theories/HybridProofs2.v
theories/HybridToy.v
theories/PropsHybrid.v
theories/Keccak.v
theories/KeccakSpec.v
theories/KeccakProofs.v
theories/Sponge.v
theories/SpongePure.v
theories/SpongeProofs.v
theories/SpongeProofs2.v
theories/SpongeFips.v
theories/ShakePrng.v
theories/PropsSponge.v
theories/DilReduce.v
theories/DilReduceProofs.v
theories/Tab.v
theories/DilNtt.v
theories/DilNttProofs.v
theories/DilNttAlg.v
theories/DilSpec.v
theories/DilSpecProofs.v
theories/DilPoly.v
theories/DilPolyProofs.v
theories/PropsDilithium.v
theories/DilPack.v
theories/DilVec.v
theories/DilSign.v
theories/DilHint.v
theories/DilPacking.v
theories/DilEncSpec.v
theories/DilSampleSpec.v
theories/DilSample.v
theories/DilEncProofs.v
theories/PropsDilithium2.v
theories/DilVecProofs.v
theories/DilSignProofs.v
theories/PropsDilithium3.v
theories/KatVectors.v
theories/KatDilithium.v
theories/NumTheory.v
theories/EdSpec.v
theories/EdCurve.v
theories/EdExt.v
theories/Wp.v
theories/Tweet.v
theories/TweetField.v
theories/TweetField2.v
theories/TweetCurve.v
theories/TweetModL.v
theories/Sha512Spec.v
theories/TweetSha.v
theories/EdSig.v
theories/EdDecode.v
theories/EdOrder.v
theories/TweetEd.v
theories/PropsEd.v
theories/SpxSpec.v
theories/Spx.v
theories/SpxTree.v
theories/SpxWots.v
theories/SpxWots2.v
theories/SpxSign.v
theories/SpxTop.v
theories/SpxExtra.v
theories/PropsSpx.v
theories/Random.v
theories/PropsRandom.v
theories/Wasm.v
theories/PropsWasm.v
theories/HybridReal.v
theories/HybridRealProofs.v
theories/PropsReal.v
theories/DilFips.v
theories/DilFipsProofs.v
theories/DilFipsProofs2.v
theories/DilFipsProofs3.v
theories/PropsDilithium4.v
theories/TweetBox.v
theories/BoxSpec.v
theories/KatBox.v
theories/PolyProofs.v
theories/PolyProofs2.v
theories/SalsaProofs.v
theories/StreamProofs.v
theories/PropsBox.v
theories/TweetDH.v
theories/X25519Spec.v
theories/KatDH.v
theories/X25519Proofs.v
theories/MontEd.v
theories/PropsDH.v
theories/BufLemmas.v
theories/DilBuf.v
theories/DilBufProofs.v
theories/DilBufSign.v
theories/BufSpec.v
theories/PropsBuf.v
theories/SpxBuf.v
theories/SpxBufProofs.v
theories/SpxBufTop.v
theories/PropsSpxBuf.v
theories/CtBase.v
theories/CtTweet.v
theories/CtTweetProofs.v
theories/PropsCt.v
theories/CtKeccak.v
theories/CtKeccakProofs.v
theories/PropsCtKeccak.v
theories/CtSpx.v
theories/CtSpxProofs.v
theories/CtSpxTrace.v
theories/CtSpxSign.v
theories/PropsCtSpx.v
theories/TweetBuf.v
theories/TweetBufProofs.v
theories/PropsTweetBuf.v
theories/CtDil.v
theories/CtDilProofs.v
theories/CtDilSpec.v
theories/CtDilTrace.v
theories/CtDilTrace2.v
theories/CtDilTrace3.v
theories/CtDilTrace4.v
theories/CtDilTrace5.v
theories/CtDilTrace6.v
theories/PropsCtDil.v
theories/Heap.v
theories/HeapProofs.v
theories/SpxHeap.v
theories/SpxHeapProofs.v
theories/HeapClient.v
theories/PropsHeap.v
theories/HybridBuf.v
theories/HybridBufProofs.v
theories/PropsHybridBuf.v
theories/HybridGame.v
theories/HybridGameProofs.v
theories/PropsHybridGame.v
theories/HybridProg.v
theories/HybridProgSpec.v
theories/HybridProgProofs.v
theories/HybridProgProofs2.v
theories/PropsHybridProg.v
theories/WasmSession.v
theories/WasmSessionSpec.v
theories/WasmSessionProofs.v
theories/PropsWasmSession.v
theories/CtHybrid.v
theories/CtHybridProofs.v
theories/PropsCtHybrid.v
theories/Residue.v
theories/PropsResidue.v
theories/SpxTree0.v
theories/PropsTreehash.v
theories/RandomDev.v
theories/RandomDevSpec.v
theories/RandomDevProofs.v
theories/PropsRandomDev.v
