-Q theories Verif
theories/Attempt_Model.v
theories/Attempt_Proofs.v
theories/Attempt_Props.v
theories/Attempt_Spec.v
theories/AuthResolver_Model.v
theories/AuthResolver_Proofs.v
theories/AuthResolver_Props.v
theories/Base.v
theories/Base64Rfc_Proofs.v
theories/Base64_Model.v
theories/Base64_Proofs.v
theories/Base64_Props.v
theories/Base64_Spec.v
theories/Base_Proofs.v
theories/Cancel_Model.v
theories/Cancel_Proofs.v
theories/Cancel_Props.v
theories/Cancel_Spec.v
theories/ClientShape_Proofs.v
theories/ClientSim_Proofs.v
theories/Client_Model.v
theories/Client_Proofs.v
theories/Client_Props.v
theories/Client_Spec.v
theories/ConfigAws_Proofs.v
theories/ConfigDoc2_Proofs.v
theories/ConfigDoc_Proofs.v
theories/ConfigFile_Model.v
theories/ConfigFile_Proofs.v
theories/ConfigFile_Props.v
theories/ConfigFile_Spec.v
theories/ConfigMerge_Proofs.v
theories/ConfigResolve_Model.v
theories/ConfigResolve_Proofs.v
theories/ConfigResolve_Props.v
theories/ConfigResolve_Spec.v
theories/ConfigText_Proofs.v
theories/Crc2_Proofs.v
theories/Crc_Proofs.v
theories/DocSerial_Proofs.v
theories/DocShape_Proofs.v
theories/Doc_Model.v
theories/Doc_Proofs.v
theories/Doc_Props.v
theories/Doc_Spec.v
theories/DuplexCall_Model.v
theories/DuplexCall_Proofs.v
theories/DuplexCall_Props.v
theories/Encode_Proofs.v
theories/Encode_Props.v
theories/Encode_Spec.v
theories/Equality_Model.v
theories/Equality_Proofs.v
theories/Equality_Props.v
theories/Equality_Spec.v
theories/Errors_Model.v
theories/Errors_Proofs.v
theories/Errors_Props.v
theories/Errors_Spec.v
theories/EventIO_Model.v
theories/EventIO_Proofs.v
theories/EventIO_Props.v
theories/EventIO_Spec.v
theories/EventSeed_Model.v
theories/EventSeed_Proofs.v
theories/EventSeed_Props.v
theories/EventSeed_Spec.v
theories/EventShape_Model.v
theories/EventShape_Proofs.v
theories/EventShape_Props.v
theories/EventShape_Spec.v
theories/EventStream_Model.v
theories/EventStream_Proofs.v
theories/EventStream_Props.v
theories/EventStream_Spec.v
theories/EventTime_Model.v
theories/EventTime_Proofs.v
theories/EventTime_Props.v
theories/EventWire_Proofs.v
theories/EventWire_Props.v
theories/EventWire_Spec.v
theories/FieldsMerge_Proofs.v
theories/Fields_Model.v
theories/Fields_Proofs.v
theories/Fields_Props.v
theories/Fields_Spec.v
theories/Form_Model.v
theories/Form_Proofs.v
theories/Form_Props.v
theories/Form_Spec.v
theories/Header_Model.v
theories/Header_Proofs.v
theories/Header_Props.v
theories/Header_Spec.v
theories/HttpBind_Model.v
theories/HttpBind_Proofs.v
theories/HttpBind_Props.v
theories/HttpBind_Spec.v
theories/HttpPath_Proofs.v
theories/HttpRead_Proofs.v
theories/HttpRead_Props.v
theories/HttpRead_Spec.v
theories/HttpVal_Model.v
theories/HttpVal_Proofs.v
theories/HttpVal_Props.v
theories/HttpVal_Spec.v
theories/Http_Model.v
theories/Http_Proofs.v
theories/Http_Props.v
theories/Http_Spec.v
theories/IdChain_Model.v
theories/IdChain_Proofs.v
theories/IdChain_Props.v
theories/IdChain_Spec.v
theories/Identity_Model.v
theories/Identity_Proofs.v
theories/Identity_Props.v
theories/Identity_Spec.v
theories/Imds_Model.v
theories/Imds_Proofs.v
theories/Imds_Props.v
theories/Imds_Spec.v
theories/JsonCalls_Model.v
theories/JsonCalls_Proofs.v
theories/JsonCalls_Props.v
theories/JsonCalls_Spec.v
theories/JsonDoc_Model.v
theories/JsonDoc_Proofs.v
theories/JsonDoc_Props.v
theories/JsonDoc_Spec.v
theories/JsonExact_Proofs.v
theories/JsonLazy_Model.v
theories/JsonLazy_Proofs.v
theories/JsonLazy_Props.v
theories/JsonLazy_Spec.v
theories/JsonNum_Proofs.v
theories/JsonRead_Proofs.v
theories/JsonTyped_Proofs.v
theories/Json_Model.v
theories/Json_Proofs.v
theories/Json_Props.v
theories/Json_Spec.v
theories/MockClient_Model.v
theories/MockClient_Proofs.v
theories/MockClient_Props.v
theories/MockClient_Spec.v
theories/MockPipeline_Model.v
theories/MockPipeline_Proofs.v
theories/MockPipeline_Props.v
theories/MockPipeline_Spec.v
theories/Pool_Model.v
theories/Pool_Proofs.v
theories/Pool_Props.v
theories/Pool_Spec.v
theories/ProviderLive_Proofs.v
theories/Provider_Model.v
theories/Provider_Proofs.v
theories/Provider_Props.v
theories/Provider_Spec.v
theories/PyDecimal_Model.v
theories/PyDecimal_Proofs.v
theories/PyDict_Model.v
theories/PyDict_Proofs.v
theories/PySort_Model.v
theories/PySort_Proofs.v
theories/PyText_Model.v
theories/PyText_Proofs.v
theories/QueryResponse_Model.v
theories/QueryResponse_Proofs.v
theories/QueryResponse_Props.v
theories/QueryResponse_Spec.v
theories/RequestWire_Model.v
theories/RequestWire_Proofs.v
theories/RequestWire_Props.v
theories/RequestWire_Spec.v
theories/ResolverTasks_Model.v
theories/ResolverTasks_Proofs.v
theories/ResolverTasks_Props.v
theories/ResolverTasks_Spec.v
theories/ResolverTree_Model.v
theories/ResolverTree_Proofs.v
theories/ResolverTree_Props.v
theories/ResolverTree_Spec.v
theories/ResponseWire_Model.v
theories/ResponseWire_Proofs.v
theories/ResponseWire_Props.v
theories/ResponseWire_Spec.v
theories/RestJsonInfo_Model.v
theories/RestJsonInfo_Proofs.v
theories/RestJsonInfo_Props.v
theories/RestJsonInfo_Spec.v
theories/RetryPipeline_Model.v
theories/RetryPipeline_Proofs.v
theories/RetryPipeline_Props.v
theories/RetryPipeline_Spec.v
theories/RetryResolver_Model.v
theories/RetryResolver_Proofs.v
theories/RetryResolver_Props.v
theories/RetryResolver_Spec.v
theories/Retry_Model.v
theories/Retry_Proofs.v
theories/Retry_Props.v
theories/Retry_Spec.v
theories/Schema_Model.v
theories/Schema_Props.v
theories/Shape_Model.v
theories/Shape_Props.v
theories/Shape_Spec.v
theories/SigRules_Proofs.v
theories/SigRules_Props.v
theories/SigRules_Spec.v
theories/Sign2_Proofs.v
theories/SignCover_Proofs.v
theories/SignCover_Props.v
theories/SignCover_Spec.v
theories/SignIO_Model.v
theories/SignIO_Proofs.v
theories/SignIO_Props.v
theories/SignIO_Spec.v
theories/SignPath_Proofs.v
theories/SignPath_Props.v
theories/SignPath_Spec.v
theories/Sign_Model.v
theories/Sign_Proofs.v
theories/Sign_Props.v
theories/Sign_Spec.v
theories/StreamCall_Model.v
theories/StreamCall_Proofs.v
theories/StreamCall_Props.v
theories/Streams_Model.v
theories/Streams_Proofs.v
theories/Streams_Props.v
theories/Streams_Spec.v
theories/TimeText_Proofs.v
theories/Time_Model.v
theories/Time_Proofs.v
theories/Time_Props.v
theories/Time_Spec.v
theories/Token_Model.v
theories/Token_Proofs.v
theories/Token_Props.v
theories/Token_Spec.v
theories/Traits_Model.v
theories/Traits_Proofs.v
theories/Traits_Props.v
theories/Traits_Spec.v
theories/Transport_Model.v
theories/Transport_Proofs.v
theories/Transport_Props.v
theories/Transport_Spec.v
theories/UnknownEnum_Model.v
theories/UnknownEnum_Proofs.v
theories/UnknownEnum_Props.v
theories/UnknownEnum_Spec.v
theories/UriEndpoint_Proofs.v
theories/UriEndpoint_Props.v
theories/UriParts_Proofs.v
theories/Uri_Model.v
theories/Uri_Proofs.v
theories/Uri_Props.v
theories/Uri_Spec.v
theories/Utf8_Model.v
theories/Utf8_Proofs.v
theories/Xml_Model.v
theories/Xml_Proofs.v
theories/Xml_Props.v
theories/Xml_Spec.v
