-Q theories Verif
theories/Base.v
theories/ByteMath_Model.v
theories/ByteMath_Spec.v
theories/ByteMath_Proofs.v
theories/ByteMath_Shift_Proofs.v
theories/ByteMath_Properties.v
theories/BufferUtil_Model.v
theories/BufferUtil_Proofs.v
theories/BufferUtil_Properties.v
theories/Crc8_Model.v
theories/Crc8_Spec.v
theories/Crc8_Proofs.v
theories/Crc8_Properties.v
theories/Flash_Base.v
theories/RamLog_Model.v
theories/RamLog_Spec.v
theories/RamLog_Proofs.v
theories/RamLog_Properties.v
theories/StateMgr_Model.v
theories/StateMgr_Spec.v
theories/StateMgr_Proofs.v
theories/StateMgr_Flash_Proofs.v
theories/StateMgr_Store_Proofs.v
theories/StateMgr_Properties.v
theories/FlashUtil_Model.v
theories/FlashUtil_Proofs.v
theories/FlashUtil_Properties.v
theories/FlashUpdater_Model.v
theories/FlashUpdater_Proofs.v
theories/FlashUpdater_Properties.v
theories/FlashStore_Model.v
theories/FlashStore_Proofs.v
theories/FlashStore_Read_Proofs.v
theories/FlashStore_Spec.v
theories/FlashStore_Layout_Proofs.v
theories/FlashStore_History_Proofs.v
theories/FlashStore_Properties.v
theories/KeyWrap_Model.v
theories/KeyWrap_Spec.v
theories/KeyWrap_Proofs.v
theories/KeyWrap_Top_Proofs.v
theories/KeyWrap_Properties.v
theories/Mctp_Model.v
theories/Mctp_Spec.v
theories/Mctp_Proofs.v
theories/Mctp_Send_Proofs.v
theories/Mctp_Receive_Proofs.v
theories/Mctp_Properties.v
theories/MctpAsync_Model.v
theories/MctpAsync_Proofs.v
theories/MctpAsync_Properties.v
theories/Pcr_Model.v
theories/Pcr_Spec.v
theories/Pcr_Proofs.v
theories/Pcr_Log_Proofs.v
theories/Pcr_History_Proofs.v
theories/Pcr_Properties.v
theories/Heap_Model.v
theories/Heap_Spec.v
theories/Heap_Links_Proofs.v
theories/Heap_Proofs.v
theories/Heap_Inv_Proofs.v
theories/Heap_Free_Proofs.v
theories/Heap_Client_Proofs.v
theories/Heap_Properties.v
theories/Observable_Model.v
theories/Observable_Spec.v
theories/Observable_Proofs.v
theories/Observable_Properties.v
theories/KeyCache_Model.v
theories/KeyCache_Spec.v
theories/KeyCache_Proofs.v
theories/KeyCache_Init_Proofs.v
theories/KeyCache_Life_Proofs.v
theories/KeyCache_Properties.v
theories/HostFw_Model.v
theories/HostFw_Spec.v
theories/HostFw_Walk_Proofs.v
theories/HostFw_Verify_Proofs.v
theories/HostFw_Compare_Proofs.v
theories/HostFw_Flash_Proofs.v
theories/HostFw_Restore_Proofs.v
theories/HostFw_Filter_Proofs.v
theories/HostFw_Properties.v
theories/Session_Model.v
theories/Session_Spec.v
theories/Session_Proofs.v
theories/Session_Inv_Proofs.v
theories/Session_Message_Proofs.v
theories/Session_Properties.v
theories/Auth_Model.v
theories/Auth_Spec.v
theories/Auth_Proofs.v
theories/Auth_Properties.v
theories/Recovery_Model.v
theories/Recovery_Spec.v
theories/Recovery_Proofs.v
theories/Recovery_Properties.v
theories/FlashLog_Model.v
theories/FlashLog_Spec.v
theories/FlashLog_Scan_Proofs.v
theories/FlashLog_Save_Proofs.v
theories/FlashLog_Proofs.v
theories/FlashLog_Reboot_Proofs.v
theories/FlashLog_Properties.v
theories/FwUpdate_Model.v
theories/FwUpdate_Spec.v
theories/FwUpdate_Flash_Proofs.v
theories/FwUpdate_Proofs.v
theories/FwUpdate_History_Proofs.v
theories/FwUpdate_Run_Proofs.v
theories/FlashUtil_Total_Proofs.v
theories/FwUpdate_Works_Proofs.v
theories/FwUpdate_Staged_Proofs.v
theories/FwUpdate_Properties.v
theories/Manifest_Model.v
theories/Manifest_Spec.v
theories/Manifest_Proofs.v
theories/Manifest_Verify_Proofs.v
theories/Manifest_Total_Proofs.v
theories/Manifest_Element_Proofs.v
theories/Manifest_Find_Proofs.v
theories/Manifest_Properties.v
theories/HostProc_Model.v
theories/HostProc_Spec.v
theories/HostProc_Proofs.v
theories/HostProc_Flow_Proofs.v
theories/HostProc_Main_Proofs.v
theories/HostProc_Live_Proofs.v
theories/HostProc_Properties.v
theories/RecoveryImage_Model.v
theories/RecoveryImage_Spec.v
theories/RecoveryImage_Proofs.v
theories/RecoveryImage_Main_Proofs.v
theories/RecoveryImage_Properties.v
theories/ManifestMgr_Model.v
theories/ManifestMgr_Spec.v
theories/ManifestMgr_Proofs.v
theories/ManifestMgr_Step_Proofs.v
theories/ManifestMgr_History_Proofs.v
theories/ManifestMgr_Properties.v
theories/Hmac_Model.v
theories/Hmac_Spec.v
theories/Hmac_Proofs.v
theories/Hmac_Kdf_Proofs.v
theories/Hmac_Properties.v
theories/Der_Model.v
theories/Der_Spec.v
theories/Der_Proofs.v
theories/Der_Sig_Proofs.v
theories/Der_Asn1_Proofs.v
theories/Der_Key_Proofs.v
theories/Der_Decode_Proofs.v
theories/Der_Properties.v
theories/Base64_Proofs.v
theories/Base64_Model.v
theories/Base64_Spec.v
theories/Base64_Properties.v
theories/OcpRecovery_Model.v
theories/OcpRecovery_Spec.v
theories/OcpRecovery_Bus_Proofs.v
theories/OcpRecovery_Dev_Proofs.v
theories/OcpRecovery_History_Proofs.v
theories/OcpRecovery_Transfer_Proofs.v
theories/OcpRecovery_Properties.v
theories/SpiFlash_Model.v
theories/SpiFlash_Spec.v
theories/SpiFlash_Proofs.v
theories/SpiFlash_History_Proofs.v
theories/SpiFlash_Properties.v
theories/CmdChannel_Model.v
theories/CmdChannel_Spec.v
theories/CmdChannel_Proofs.v
theories/CmdChannel_Properties.v
theories/Tpm_Model.v
theories/Tpm_Spec.v
theories/Tpm_Proofs.v
theories/Tpm_History_Proofs.v
theories/Tpm_Properties.v
theories/DeviceUnlock_Model.v
theories/DeviceUnlock_Spec.v
theories/DeviceUnlock_Parse_Proofs.v
theories/DeviceUnlock_Proofs.v
theories/DeviceUnlock_Properties.v
theories/Transcript_Model.v
theories/Transcript_Spec.v
theories/Transcript_Proofs.v
theories/Transcript_Messages_Proofs.v
theories/Transcript_Properties.v
theories/ManifestKey_Model.v
theories/ManifestKey_Spec.v
theories/ManifestKey_Proofs.v
theories/ManifestKey_Properties.v
theories/SpdmSession_Model.v
theories/SpdmSession_Spec.v
theories/SpdmSession_Proofs.v
theories/SpdmSession_Run_Proofs.v
theories/SpdmSession_Wire_Proofs.v
theories/SpdmSession_Slot_Proofs.v
theories/SpdmSession_Talk_Proofs.v
theories/SpdmSession_Properties.v
theories/Intrusion_Model.v
theories/Intrusion_Spec.v
theories/Intrusion_Properties.v
theories/EventTask_Model.v
theories/EventTask_Spec.v
theories/EventTask_Proofs.v
theories/EventTask_Step_Proofs.v
theories/EventTask_Run_Proofs.v
theories/EventTask_Calls_Proofs.v
theories/EventTask_Properties.v
theories/Unseal_Model.v
theories/Unseal_Spec.v
theories/Unseal_Properties.v
theories/Background_Model.v
theories/Background_Spec.v
theories/Background_Proofs.v
theories/Background_Calls_Proofs.v
theories/Background_Properties.v
theories/AuxAtt_Model.v
theories/AuxAtt_Spec.v
theories/AuxAtt_Properties.v
theories/BmcRecovery_Model.v
theories/BmcRecovery_Spec.v
theories/BmcRecovery_Properties.v
theories/ConfigReset_Model.v
theories/ConfigReset_Spec.v
theories/ConfigReset_Properties.v
theories/Measure_Model.v
theories/Measure_Spec.v
theories/Measure_Proofs.v
theories/Measure_Properties.v
theories/Doe_Model.v
theories/Doe_Spec.v
theories/Doe_Properties.v
theories/Keystore_Model.v
theories/Keystore_Spec.v
theories/Keystore_Properties.v
theories/Rma_Model.v
theories/Rma_Spec.v
theories/Rma_Properties.v
theories/Impactful_Model.v
theories/Impactful_Spec.v
theories/Impactful_Properties.v
theories/Aggregator_Model.v
theories/Aggregator_Spec.v
theories/Aggregator_Properties.v
theories/Tdisp_Model.v
theories/Tdisp_Spec.v
theories/Tdisp_Properties.v
theories/Ide_Model.v
theories/Ide_Spec.v
theories/Ide_Properties.v
theories/Periodic_Model.v
theories/Periodic_Spec.v
theories/Periodic_Properties.v
theories/CmdSecure_Model.v
theories/CmdSecure_Spec.v
theories/CmdSecure_Properties.v
theories/Counter_Model.v
theories/Counter_Spec.v
theories/Counter_Properties.v
theories/VirtualFlash_Model.v
theories/VirtualFlash_Spec.v
theories/VirtualFlash_Properties.v
theories/PrepUpdate_Model.v
theories/PrepUpdate_Spec.v
theories/PrepUpdate_Properties.v
