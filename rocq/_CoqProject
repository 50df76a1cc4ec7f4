-Q theories Verif
theories/Alloc_model.v
theories/Alloc_proofs.v
theories/Alloc_props.v
theories/Alloc_spec.v
theories/Base_model.v
theories/Busy_model.v
theories/Busy_proofs.v
theories/Busy_proofs2.v
theories/Busy_proofs3.v
theories/Busy_props.v
theories/Busy_spec.v
theories/Busylist_model.v
theories/Busylist_proofs.v
theories/Busylist_props.v
theories/Busylist_spec.v
theories/Bytes_model.v
theories/Bytes_proofs.v
theories/Card_model.v
theories/Card_props.v
theories/Card_spec.v
theories/Chain_model.v
theories/Chain_proofs.v
theories/Chain_proofs2.v
theories/Chain_proofs3.v
theories/Chain_props.v
theories/Chain_spec.v
theories/Check_model.v
theories/Check_proofs.v
theories/Check_props.v
theories/Check_spec.v
theories/Cleanup_model.v
theories/Cleanup_proofs.v
theories/Cleanup_props.v
theories/Cleanup_spec.v
theories/Codec_model.v
theories/Codec_proofs.v
theories/Codec_props.v
theories/Codec_spec.v
theories/Commands_model.v
theories/Commands_proofs.v
theories/Commands_proofs2.v
theories/Commands_props.v
theories/Commands_spec.v
theories/Complete_props.v
theories/Complete_spec.v
theories/Consumer_model.v
theories/Consumer_props.v
theories/Consumer_spec.v
theories/Daphne_model.v
theories/Daphne_proofs.v
theories/Daphne_props.v
theories/Ebg_model.v
theories/Ebg_proofs.v
theories/Ebg_props.v
theories/Ebg_spec.v
theories/Elem_model.v
theories/Emu_model.v
theories/Emu_proofs.v
theories/Emu_props.v
theories/Emu_spec.v
theories/Expand_model.v
theories/Expand_proofs.v
theories/Expand_props.v
theories/Expand_spec.v
theories/Factory_model.v
theories/Factory_props.v
theories/Factory_spec.v
theories/Feed_model.v
theories/Feed_proofs.v
theories/Feed_proofs2.v
theories/Feed_proofs3.v
theories/Feed_proofs4.v
theories/Feed_proofs5.v
theories/Feed_proofs6.v
theories/Feed_proofs7.v
theories/Feed_proofs8.v
theories/Feed_props.v
theories/Feed_spec.v
theories/File_model.v
theories/File_proofs.v
theories/File_props.v
theories/File_spec.v
theories/Fir_model.v
theories/Fir_proofs.v
theories/Fir_proofs2.v
theories/Fir_props.v
theories/Fir_spec.v
theories/Float_model.v
theories/Float_proofs.v
theories/Flow_model.v
theories/Flow_proofs.v
theories/Flow_proofs2.v
theories/Flow_proofs3.v
theories/Flow_props.v
theories/Flow_spec.v
theories/Frugal_model.v
theories/Frugal_proofs.v
theories/Frugal_props.v
theories/Frugal_spec.v
theories/Gen_model.v
theories/Gen_props.v
theories/Gen_spec.v
theories/Guard_model.v
theories/Guard_proofs.v
theories/Guard_props.v
theories/Guard_spec.v
theories/Heap_model.v
theories/Heap_proofs.v
theories/Heap_props.v
theories/Hits_model.v
theories/Hits_proofs.v
theories/Hits_proofs2.v
theories/Hits_proofs3.v
theories/Hits_props.v
theories/Hits_props2.v
theories/Hits_spec.v
theories/Hits_spec2.v
theories/Keep_model.v
theories/Keep_proofs.v
theories/Keep_proofs2.v
theories/Keep_props.v
theories/Keep_spec.v
theories/Lb_model.v
theories/Lb_proofs.v
theories/Lend_model.v
theories/Lend_proofs.v
theories/Lend_proofs2.v
theories/Lend_props.v
theories/Lend_spec.v
theories/Life_model.v
theories/Life_proofs.v
theories/Life_proofs2.v
theories/Life_proofs3.v
theories/Life_proofs4.v
theories/Life_proofs5.v
theories/Life_proofs6.v
theories/Life_proofs7.v
theories/Life_props.v
theories/Life_spec.v
theories/Link_model.v
theories/Link_proofs.v
theories/Link_props.v
theories/Link_spec.v
theories/Look_model.v
theories/Look_proofs.v
theories/Look_props.v
theories/Look_spec.v
theories/Loops_model.v
theories/Loops_proofs.v
theories/Loops_props.v
theories/Loops_spec.v
theories/Names_model.v
theories/Names_props.v
theories/Names_spec.v
theories/Pace_model.v
theories/Pace_proofs.v
theories/Pace_proofs2.v
theories/Pace_props.v
theories/Pace_spec.v
theories/Pds_model.v
theories/Pds_proofs.v
theories/Pds_proofs2.v
theories/Pds_props.v
theories/Pds_spec.v
theories/Pipe_model.v
theories/Pipe_proofs.v
theories/Pipe_proofs2.v
theories/Pipe_proofs3.v
theories/Pipe_props.v
theories/Pipe_spec.v
theories/Post_model.v
theories/Post_proofs.v
theories/Post_props.v
theories/Post_spec.v
theories/Protowib_model.v
theories/Protowib_proofs.v
theories/Protowib_proofs2.v
theories/Protowib_props.v
theories/Protowib_spec.v
theories/Rate_model.v
theories/Rate_proofs.v
theories/Rate_props.v
theories/Rate_spec.v
theories/Rawtp_model.v
theories/Rawtp_proofs.v
theories/Rawtp_props.v
theories/Rawtp_spec.v
theories/Record_model.v
theories/Record_proofs.v
theories/Record_proofs2.v
theories/Record_proofs3.v
theories/Record_props.v
theories/Record_spec.v
theories/Recorder_model.v
theories/Recorder_proofs.v
theories/Recorder_proofs2.v
theories/Recorder_proofs3.v
theories/Recorder_proofs4.v
theories/Recorder_proofs5.v
theories/Recorder_proofs6.v
theories/Recorder_proofs7.v
theories/Recorder_props.v
theories/Recorder_spec.v
theories/Registry_model.v
theories/Registry_proofs.v
theories/Registry_props.v
theories/Registry_spec.v
theories/Request_model.v
theories/Request_proofs.v
theories/Request_props.v
theories/Request_spec.v
theories/Ring_model.v
theories/Ring_proofs.v
theories/Ring_props.v
theories/Ring_spec.v
theories/Search_model.v
theories/Search_proofs.v
theories/Search_props.v
theories/Search_spec.v
theories/Settings_model.v
theories/Settings_props.v
theories/Size_model.v
theories/Size_proofs.v
theories/Size_props.v
theories/Size_spec.v
theories/SkipList_model.v
theories/SkipList_proofs.v
theories/SkipList_props.v
theories/SkipList_spec.v
theories/Spsc_model.v
theories/Spsc_proofs.v
theories/Spsc_props.v
theories/Spsc_spec.v
theories/Stitch_model.v
theories/Stitch_proofs.v
theories/Stitch_props.v
theories/Stitch_spec.v
theories/Sustain_proofs.v
theories/Sustain_proofs2.v
theories/Sustain_props.v
theories/Sustain_spec.v
theories/Swtpg_model.v
theories/Swtpg_proofs.v
theories/Swtpg_proofs2.v
theories/Swtpg_proofs3.v
theories/Swtpg_props.v
theories/Swtpg_spec.v
theories/Thread_model.v
theories/Thread_proofs.v
theories/Thread_props.v
theories/Thread_spec.v
theories/Tp_model.v
theories/Tp_proofs.v
theories/Tp_props.v
theories/Tp_spec.v
theories/Tpmem_model.v
theories/Tpmem_proofs.v
theories/Tpmem_props.v
theories/Tpmem_spec.v
theories/Walk_model.v
theories/Walk_proofs.v
theories/Walk_props.v
theories/Walk_spec.v
theories/Zcopy_model.v
theories/Zcopy_proofs.v
theories/Zcopy_proofs2.v
theories/Zcopy_proofs3.v
theories/Zcopy_proofs4.v
theories/Zcopy_proofs5.v
theories/Zcopy_proofs6.v
theories/Zcopy_proofs7.v
theories/Zcopy_props.v
theories/Zcopy_spec.v
