-Q theories Verif
theories/Base.v
theories/Iter.v
theories/VecModel.v
theories/BitmapModel.v
theories/CollModel.v
theories/ValidityModel.v
theories/FlattenModel.v
theories/OffsetsModel.v
theories/OffsetViewModel.v
theories/LayoutModel.v
theories/Spec.v
theories/SpecTables.v
theories/SpecParts.v
theories/Reach.v
theories/Calm.v
theories/IterLemmas.v
theories/VecLemmas.v
theories/RoomLemmas.v
theories/BitmapLemmas.v
theories/BitmapLemmas2.v
theories/HonestLemmas.v
theories/Laws.v
theories/LawsBase.v
theories/LawsFlatten.v
theories/LawsValidity.v
theories/LawsSealed.v
theories/LawsOffsets.v
theories/ReachLemmas.v
theories/CoreLemmas.v
theories/FactsBitmap.v
theories/SpecResume.v
theories/FactsResume.v
theories/PropBitmap.v
theories/FactsNull.v
theories/PropNull.v
theories/FactsList.v
theories/OwnedListModel.v
theories/SpecOwned.v
theories/SpecHanded.v
theories/FactsOwned.v
theories/PropOwned.v
theories/HandleModel.v
theories/SpecHandle.v
theories/FactsHandle.v
theories/PropHandle.v
theories/SpecLaid.v
theories/FactsLaid.v
theories/PropLaid.v
theories/SpecWire.v
theories/FactsWire.v
theories/PropWire.v
theories/UnpackModel.v
theories/SpecPack.v
theories/FactsPack.v
theories/PropPack.v
theories/PropList.v
theories/SpecFixed.v
theories/FactsFixed.v
theories/PropFixed.v
theories/FactsRepair.v
theories/PropRepair.v
theories/WeakLaws.v
theories/WeakNull.v
theories/WeakList.v
theories/SpecLived.v
theories/WeakOwned.v
theories/FactsLived.v
theories/PropLived.v
theories/FactsTorn.v
theories/PropTorn.v
theories/WeakRoom.v
theories/WeakLive.v
theories/SpecRoom.v
theories/FactsRoom.v
theories/PropRoom.v
theories/FactsAfter.v
theories/PropAfter.v
theories/FactsArray.v
theories/PropArray.v
theories/FactsParts.v
theories/PropParts.v
theories/FfiModel.v
theories/SpecFfi.v
theories/FfiLemmas.v
theories/FactsImport.v
theories/FactsExport.v
theories/FactsFfi.v
theories/PropFfi.v
theories/SpecFault.v
theories/FactsFault.v
theories/PropFault.v
theories/FfiHeapModel.v
theories/SpecHeap.v
theories/FactsHeap.v
theories/FfiExportModel.v
theories/FactsRun.v
theories/PropHeap.v
theories/FfiPlaceModel.v
theories/SpecPlace.v
theories/FactsPlace.v
theories/PropPlace.v
theories/LiveBase.v
theories/LiveLaws.v
theories/SpecLive.v
theories/FactsLive.v
theories/FactsBox.v
theories/PropBox.v
theories/PropLive.v
theories/StorageModel.v
theories/BoxModel.v
theories/SpecStorage.v
theories/FactsStorage.v
theories/PropStorage.v
theories/SpecTaken.v
theories/FactsTaken.v
theories/PropTaken.v
theories/SpecBytes.v
theories/FactsBytes.v
theories/CloneModel.v
theories/PropBytes.v
theories/CopyModel.v
theories/FactsCopy.v
theories/PropCopy.v
theories/NullModel.v
theories/SpecNullability.v
theories/FactsNullability.v
theories/PropNullability.v
theories/FactsHanded.v
theories/PropHanded.v
theories/SpecCaps.v
theories/MemoryLaws.v
theories/FactsCaps.v
theories/PropCaps.v
theories/SpecBounds.v
theories/BoundBase.v
theories/BoundLaws.v
theories/BoundLists.v
theories/FactsBounds.v
theories/PropBounds.v
theories/TextModel.v
theories/SpecText.v
theories/FactsText.v
theories/PropText.v
theories/BorrowModel.v
theories/SpecBorrow.v
theories/FactsBorrow.v
theories/PropBorrow.v
theories/RepoTests.v
