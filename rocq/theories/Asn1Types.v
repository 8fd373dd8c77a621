(** The ASN.1 types the validator decodes with the asn1c decoder: the
    descriptors the ASN.1 compiler generated, as data.  A tag is
    (number << 2 | class); see Asn1Dec.v.  The order of a member's fields is:
    tag, tag_mode, optional, ATF_ANY_TYPE, type. *)
From Verif Require Import Base Asn1Dec.

(** src/asn1/asn1c/INTEGER.c:30-41. *)
Definition t_INTEGER : ty :=
  TPrim [8].

(** src/asn1/asn1c/ASId.c:17-30. *)
Definition t_ASId : ty :=
  TPrim [8].

(** src/asn1/asn1c/OCTET_STRING.c:42-55. *)
Definition t_OCTET_STRING : ty :=
  TString STR [16] [16].

(** src/asn1/asn1c/IPAddress.c:17-30. *)
Definition t_IPAddress : ty :=
  TString BIT [12] [12].

(** src/asn1/asn1c/ROAIPAddress.c:44-58, members ROAIPAddress.c:10-29, table ROAIPAddress.c:33-36. *)
Definition t_ROAIPAddress : ty :=
  TSeq [64] [(8, 1%nat); (12, 0%nat)]
    [Member (Some 12) 0 0 false t_IPAddress;
     Member (Some 8) 0 1 false t_INTEGER].

(** src/asn1/asn1c/ROAIPAddressFamily.c:199-213, members ROAIPAddressFamily.c:179-189. *)
Definition t_ROAIPAddressFamily_addresses : ty :=
  TOf [64] (Some 64) t_ROAIPAddress.

(** src/asn1/asn1c/ROAIPAddressFamily.c:249-263, members ROAIPAddressFamily.c:215-234, table ROAIPAddressFamily.c:238-241. *)
Definition t_ROAIPAddressFamily : ty :=
  TSeq [64] [(16, 0%nat); (64, 1%nat)]
    [Member (Some 16) 0 0 false t_OCTET_STRING;
     Member (Some 64) 0 0 false t_ROAIPAddressFamily_addresses].

(** src/asn1/asn1c/RouteOriginAttestation.c:83-97, members RouteOriginAttestation.c:63-73. *)
Definition t_RouteOriginAttestation_ipAddrBlocks : ty :=
  TOf [64] (Some 64) t_ROAIPAddressFamily.

(** src/asn1/asn1c/RouteOriginAttestation.c:144-158, members RouteOriginAttestation.c:99-128, table RouteOriginAttestation.c:132-136. *)
Definition t_RouteOriginAttestation : ty :=
  TSeq [64] [(8, 1%nat); (64, 2%nat); (2, 0%nat)]
    [Member (Some 2) 1 1 false t_INTEGER;
     Member (Some 8) 0 0 false t_ASId;
     Member (Some 64) 0 0 false t_RouteOriginAttestation_ipAddrBlocks].

(** src/asn1/asn1c/GeneralizedTime.c:68-81. *)
Definition t_GeneralizedTime : ty :=
  TString STR [96] [96; 104; 16].

(** src/asn1/asn1c/OBJECT_IDENTIFIER.c:34-47. *)
Definition t_OBJECT_IDENTIFIER : ty :=
  TPrim [24].

(** src/asn1/asn1c/IA5String.c:24-37. *)
Definition t_IA5String : ty :=
  TString STR [88] [88; 16].

(** src/asn1/asn1c/BIT_STRING.c:34-47. *)
Definition t_BIT_STRING : ty :=
  TString BIT [12] [12].

(** src/asn1/asn1c/FileAndHash.c:44-58, members FileAndHash.c:10-29, table FileAndHash.c:33-36. *)
Definition t_FileAndHash : ty :=
  TSeq [64] [(12, 1%nat); (88, 0%nat)]
    [Member (Some 88) 0 0 false t_IA5String;
     Member (Some 12) 0 0 false t_BIT_STRING].

(** src/asn1/asn1c/Manifest.c:103-117, members Manifest.c:83-93. *)
Definition t_Manifest_fileList : ty :=
  TOf [64] (Some 64) t_FileAndHash.

(** src/asn1/asn1c/Manifest.c:194-208, members Manifest.c:119-175, table Manifest.c:179-186. *)
Definition t_Manifest : ty :=
  TSeq [64] [(8, 1%nat); (24, 4%nat); (64, 5%nat); (96, 2%nat); (96, 3%nat); (2, 0%nat)]
    [Member (Some 2) 1 1 false t_INTEGER;
     Member (Some 8) 0 0 false t_INTEGER;
     Member (Some 96) 0 0 false t_GeneralizedTime;
     Member (Some 96) 0 0 false t_GeneralizedTime;
     Member (Some 24) 0 0 false t_OBJECT_IDENTIFIER;
     Member (Some 64) 0 0 false t_Manifest_fileList].

(** src/asn1/asn1c/NULL.c:27-38. *)
Definition t_NULL : ty :=
  TNull [20].

(** src/asn1/asn1c/IPAddressRange.c:44-58, members IPAddressRange.c:10-29, table IPAddressRange.c:33-36. *)
Definition t_IPAddressRange : ty :=
  TSeq [64] [(12, 0%nat); (12, 1%nat)]
    [Member (Some 12) 0 0 false t_IPAddress;
     Member (Some 12) 0 0 false t_IPAddress].

(** src/asn1/asn1c/IPAddressOrRange.c:43-55, members IPAddressOrRange.c:10-29, table IPAddressOrRange.c:30-33. *)
Definition t_IPAddressOrRange : ty :=
  TChoice [] [(12, 0%nat); (64, 1%nat)]
    [Member (Some 12) 0 0 false t_IPAddress;
     Member (Some 64) 0 0 false t_IPAddressRange].

(** src/asn1/asn1c/IPAddressChoice.c:32-46, members IPAddressChoice.c:12-22. *)
Definition t_IPAddressChoice_addressesOrRanges : ty :=
  TOf [64] None t_IPAddressOrRange.

(** src/asn1/asn1c/IPAddressChoice.c:81-93, members IPAddressChoice.c:48-67, table IPAddressChoice.c:68-71. *)
Definition t_IPAddressChoice : ty :=
  TChoice [] [(20, 0%nat); (64, 1%nat)]
    [Member (Some 20) 0 0 false t_NULL;
     Member (Some 64) 0 0 false t_IPAddressChoice_addressesOrRanges].

(** src/asn1/asn1c/IPAddressFamily.c:71-85, members IPAddressFamily.c:36-55, table IPAddressFamily.c:59-63. *)
Definition t_IPAddressFamily : ty :=
  TSeq [64] [(16, 0%nat); (20, 1%nat); (64, 1%nat)]
    [Member (Some 16) 0 0 false t_OCTET_STRING;
     Member None 0 0 false t_IPAddressChoice].

(** src/asn1/asn1c/IPAddrBlocks.c:31-45, members IPAddrBlocks.c:12-22. *)
Definition t_IPAddrBlocks : ty :=
  TOf [64] (Some 64) t_IPAddressFamily.

(** src/asn1/asn1c/ASRange.c:44-58, members ASRange.c:10-29, table ASRange.c:33-36. *)
Definition t_ASRange : ty :=
  TSeq [64] [(8, 0%nat); (8, 1%nat)]
    [Member (Some 8) 0 0 false t_ASId;
     Member (Some 8) 0 0 false t_ASId].

(** src/asn1/asn1c/ASIdOrRange.c:43-55, members ASIdOrRange.c:10-29, table ASIdOrRange.c:30-33. *)
Definition t_ASIdOrRange : ty :=
  TChoice [] [(8, 0%nat); (64, 1%nat)]
    [Member (Some 8) 0 0 false t_ASId;
     Member (Some 64) 0 0 false t_ASRange].

(** src/asn1/asn1c/ASIdentifierChoice.c:32-46, members ASIdentifierChoice.c:12-22. *)
Definition t_ASIdentifierChoice_asIdsOrRanges : ty :=
  TOf [64] None t_ASIdOrRange.

(** src/asn1/asn1c/ASIdentifierChoice.c:81-93, members ASIdentifierChoice.c:48-67, table ASIdentifierChoice.c:68-71. *)
Definition t_ASIdentifierChoice : ty :=
  TChoice [] [(20, 0%nat); (64, 1%nat)]
    [Member (Some 20) 0 0 false t_NULL;
     Member (Some 64) 0 0 false t_ASIdentifierChoice_asIdsOrRanges].

(** src/asn1/asn1c/ASIdentifiers.c:44-58, members ASIdentifiers.c:10-29, table ASIdentifiers.c:33-36. *)
Definition t_ASIdentifiers : ty :=
  TSeq [64] [(2, 0%nat); (6, 1%nat)]
    [Member (Some 2) 1 2 false t_ASIdentifierChoice;
     Member (Some 6) 1 1 false t_ASIdentifierChoice].

(** src/asn1/asn1c/ContentType.c:17-30. *)
Definition t_ContentType : ty :=
  TPrim [24].

(** src/asn1/asn1c/ANY.c:31-39. *)
Definition t_ANY : ty :=
  TString ANY [] [].

(** src/asn1/asn1c/ContentInfo.c:95-109, members ContentInfo.c:61-80, table ContentInfo.c:84-87. *)
Definition t_ContentInfo : ty :=
  TSeq [64] [(24, 0%nat); (2, 1%nat)]
    [Member (Some 24) 0 0 false t_ContentType;
     Member (Some 2) 1 0 false t_ANY].

(** src/asn1/asn1c/CMSVersion.c:17-30. *)
Definition t_CMSVersion : ty :=
  TPrim [8].

(** src/asn1/asn1c/DigestAlgorithmIdentifier.c:17-31, members AlgorithmIdentifier.c:10-29, table AlgorithmIdentifier.c:33-35. *)
Definition t_DigestAlgorithmIdentifier : ty :=
  TSeq [64] [(24, 0%nat)]
    [Member (Some 24) 0 0 false t_OBJECT_IDENTIFIER;
     Member None 0 1 true t_ANY].

(** src/asn1/asn1c/DigestAlgorithmIdentifiers.c:31-45, members DigestAlgorithmIdentifiers.c:12-22. *)
Definition t_DigestAlgorithmIdentifiers : ty :=
  TOf [68] (Some 64) t_DigestAlgorithmIdentifier.

(** src/asn1/asn1c/EncapsulatedContentInfo.c:105-119, members EncapsulatedContentInfo.c:71-90, table EncapsulatedContentInfo.c:94-97. *)
Definition t_EncapsulatedContentInfo : ty :=
  TSeq [64] [(24, 0%nat); (2, 1%nat)]
    [Member (Some 24) 0 0 false t_ContentType;
     Member (Some 2) 1 1 false t_OCTET_STRING].

(** src/asn1/asn1c/CertificateSet.c:73-87, members CertificateSet.c:54-64. *)
Definition t_CertificateSet : ty :=
  TOf [68] None t_ANY.

(** src/asn1/asn1c/Version.c:17-30. *)
Definition t_Version : ty :=
  TPrim [8].

(** src/asn1/asn1c/AlgorithmIdentifier.c:43-57, members AlgorithmIdentifier.c:10-29, table AlgorithmIdentifier.c:33-35. *)
Definition t_AlgorithmIdentifier : ty :=
  TSeq [64] [(24, 0%nat)]
    [Member (Some 24) 0 0 false t_OBJECT_IDENTIFIER;
     Member None 0 1 true t_ANY].

(** src/asn1/asn1c/AttributeType.c:17-30. *)
Definition t_AttributeType : ty :=
  TPrim [24].

(** src/asn1/asn1c/AttributeValue.c:14-25. *)
Definition t_AttributeValue : ty :=
  TString ANY [] [].

(** src/asn1/asn1c/AttributeTypeAndValue.c:43-57, members AttributeTypeAndValue.c:10-29, table AttributeTypeAndValue.c:33-35. *)
Definition t_AttributeTypeAndValue : ty :=
  TSeq [64] [(24, 0%nat)]
    [Member (Some 24) 0 0 false t_AttributeType;
     Member None 0 0 true t_AttributeValue].

(** src/asn1/asn1c/RelativeDistinguishedName.c:29-43, members RelativeDistinguishedName.c:10-20. *)
Definition t_RelativeDistinguishedName : ty :=
  TOf [68] (Some 64) t_AttributeTypeAndValue.

(** src/asn1/asn1c/RDNSequence.c:31-45, members RDNSequence.c:12-22. *)
Definition t_RDNSequence : ty :=
  TOf [64] (Some 68) t_RelativeDistinguishedName.

(** src/asn1/asn1c/Name.c:33-45, members Name.c:10-20, table Name.c:21-23. *)
Definition t_Name : ty :=
  TChoice [] [(64, 0%nat)]
    [Member (Some 64) 0 0 false t_RDNSequence].

(** src/asn1/asn1c/UTCTime.c:36-49. *)
Definition t_UTCTime : ty :=
  TString STR [92] [92; 104; 16].

(** src/asn1/asn1c/Time.c:43-55, members Time.c:10-29, table Time.c:30-33. *)
Definition t_Time : ty :=
  TChoice [] [(92, 0%nat); (96, 1%nat)]
    [Member (Some 92) 0 0 false t_UTCTime;
     Member (Some 96) 0 0 false t_GeneralizedTime].

(** src/asn1/asn1c/CertificateSerialNumber.c:17-30. *)
Definition t_CertificateSerialNumber : ty :=
  TPrim [8].

(** src/asn1/asn1c/BOOLEAN.c:27-38. *)
Definition t_BOOLEAN : ty :=
  TBool [4].

(** src/asn1/asn1c/Extension.c:79-93, members Extension.c:34-63, table Extension.c:67-71. *)
Definition t_Extension : ty :=
  TSeq [64] [(4, 1%nat); (16, 2%nat); (24, 0%nat)]
    [Member (Some 24) 0 0 false t_OBJECT_IDENTIFIER;
     Member (Some 4) 0 1 false t_BOOLEAN;
     Member (Some 16) 0 0 false t_OCTET_STRING].

(** src/asn1/asn1c/Extensions.c:31-45, members Extensions.c:12-22. *)
Definition t_Extensions : ty :=
  TOf [64] (Some 64) t_Extension.

(** src/asn1/asn1c/TBSCertList.c:58-72, members TBSCertList.c:12-40, table TBSCertList.c:44-49. *)
Definition t_TBSCertList_Member : ty :=
  TSeq [64] [(8, 0%nat); (64, 2%nat); (92, 1%nat); (96, 1%nat)]
    [Member (Some 8) 0 0 false t_CertificateSerialNumber;
     Member None 0 0 false t_Time;
     Member (Some 64) 0 1 false t_Extensions].

(** src/asn1/asn1c/TBSCertList.c:94-108, members TBSCertList.c:74-84. *)
Definition t_TBSCertList_revokedCertificates : ty :=
  TOf [64] (Some 64) t_TBSCertList_Member.

(** src/asn1/asn1c/TBSCertList.c:196-210, members TBSCertList.c:110-174, table TBSCertList.c:178-188. *)
Definition t_TBSCertList : ty :=
  TSeq [64] [(8, 0%nat); (64, 1%nat); (64, 2%nat); (64, 5%nat); (92, 3%nat); (92, 4%nat); (96, 3%nat); (96, 4%nat); (2, 6%nat)]
    [Member (Some 8) 0 1 false t_Version;
     Member (Some 64) 0 0 false t_AlgorithmIdentifier;
     Member None 0 0 false t_Name;
     Member None 0 0 false t_Time;
     Member None 0 3 false t_Time;
     Member (Some 64) 0 2 false t_TBSCertList_revokedCertificates;
     Member (Some 2) 1 1 false t_Extensions].

(** src/asn1/asn1c/CertificateList.c:54-68, members CertificateList.c:10-38, table CertificateList.c:42-46. *)
Definition t_CertificateList : ty :=
  TSeq [64] [(12, 2%nat); (64, 0%nat); (64, 1%nat)]
    [Member (Some 64) 0 0 false t_TBSCertList;
     Member (Some 64) 0 0 false t_AlgorithmIdentifier;
     Member (Some 12) 0 0 false t_BIT_STRING].

(** src/asn1/asn1c/OtherRevocationInfoFormat.c:43-57, members OtherRevocationInfoFormat.c:10-29, table OtherRevocationInfoFormat.c:33-35. *)
Definition t_OtherRevocationInfoFormat : ty :=
  TSeq [64] [(24, 0%nat)]
    [Member (Some 24) 0 0 false t_OBJECT_IDENTIFIER;
     Member None 0 0 true t_ANY].

(** src/asn1/asn1c/RevocationInfoChoice.c:43-55, members RevocationInfoChoice.c:10-29, table RevocationInfoChoice.c:30-33. *)
Definition t_RevocationInfoChoice : ty :=
  TChoice [] [(64, 0%nat); (6, 1%nat)]
    [Member (Some 64) 0 0 false t_CertificateList;
     Member (Some 6) (-1) 0 false t_OtherRevocationInfoFormat].

(** src/asn1/asn1c/RevocationInfoChoices.c:29-43, members RevocationInfoChoices.c:10-20. *)
Definition t_RevocationInfoChoices : ty :=
  TOf [68] None t_RevocationInfoChoice.

(** src/asn1/asn1c/IssuerAndSerialNumber.c:44-58, members IssuerAndSerialNumber.c:10-29, table IssuerAndSerialNumber.c:33-36. *)
Definition t_IssuerAndSerialNumber : ty :=
  TSeq [64] [(8, 1%nat); (64, 0%nat)]
    [Member None 0 0 false t_Name;
     Member (Some 8) 0 0 false t_CertificateSerialNumber].

(** src/asn1/asn1c/CMSSubjectKeyIdentifier.c:17-30. *)
Definition t_CMSSubjectKeyIdentifier : ty :=
  TString STR [16] [16].

(** src/asn1/asn1c/SignerIdentifier.c:43-55, members SignerIdentifier.c:10-29, table SignerIdentifier.c:30-33. *)
Definition t_SignerIdentifier : ty :=
  TChoice [] [(64, 0%nat); (2, 1%nat)]
    [Member (Some 64) 0 0 false t_IssuerAndSerialNumber;
     Member (Some 2) (-1) 0 false t_CMSSubjectKeyIdentifier].

(** src/asn1/asn1c/CMSAttributeValue.c:14-25. *)
Definition t_CMSAttributeValue : ty :=
  TString ANY [] [].

(** src/asn1/asn1c/CMSAttribute.c:98-112, members CMSAttribute.c:78-88. *)
Definition t_CMSAttribute_attrValues : ty :=
  TOf [68] None t_CMSAttributeValue.

(** src/asn1/asn1c/CMSAttribute.c:148-162, members CMSAttribute.c:114-133, table CMSAttribute.c:137-140. *)
Definition t_CMSAttribute : ty :=
  TSeq [64] [(24, 0%nat); (68, 1%nat)]
    [Member (Some 24) 0 0 false t_OBJECT_IDENTIFIER;
     Member (Some 68) 0 0 false t_CMSAttribute_attrValues].

(** src/asn1/asn1c/SignedAttributes.c:29-43, members SignedAttributes.c:10-20. *)
Definition t_SignedAttributes : ty :=
  TOf [68] (Some 64) t_CMSAttribute.

(** src/asn1/asn1c/SignatureAlgorithmIdentifier.c:17-31, members AlgorithmIdentifier.c:10-29, table AlgorithmIdentifier.c:33-35. *)
Definition t_SignatureAlgorithmIdentifier : ty :=
  TSeq [64] [(24, 0%nat)]
    [Member (Some 24) 0 0 false t_OBJECT_IDENTIFIER;
     Member None 0 1 true t_ANY].

(** src/asn1/asn1c/SignatureValue.c:17-30. *)
Definition t_SignatureValue : ty :=
  TString STR [16] [16].

(** src/asn1/asn1c/UnsignedAttributes.c:29-43, members UnsignedAttributes.c:10-20. *)
Definition t_UnsignedAttributes : ty :=
  TOf [68] (Some 64) t_CMSAttribute.

(** src/asn1/asn1c/SignerInfo.c:95-109, members SignerInfo.c:10-74, table SignerInfo.c:78-87. *)
Definition t_SignerInfo : ty :=
  TSeq [64] [(8, 0%nat); (16, 5%nat); (64, 1%nat); (64, 2%nat); (64, 4%nat); (2, 1%nat); (2, 3%nat); (6, 6%nat)]
    [Member (Some 8) 0 0 false t_CMSVersion;
     Member None 0 0 false t_SignerIdentifier;
     Member (Some 64) 0 0 false t_DigestAlgorithmIdentifier;
     Member (Some 2) (-1) 1 false t_SignedAttributes;
     Member (Some 64) 0 0 false t_SignatureAlgorithmIdentifier;
     Member (Some 16) 0 0 false t_SignatureValue;
     Member (Some 6) (-1) 1 false t_UnsignedAttributes].

(** src/asn1/asn1c/SignerInfos.c:29-43, members SignerInfos.c:10-20. *)
Definition t_SignerInfos : ty :=
  TOf [68] (Some 64) t_SignerInfo.

(** src/asn1/asn1c/SignedData.c:84-98, members SignedData.c:10-65, table SignedData.c:69-76. *)
Definition t_SignedData : ty :=
  TSeq [64] [(8, 0%nat); (64, 2%nat); (68, 1%nat); (68, 5%nat); (2, 3%nat); (6, 4%nat)]
    [Member (Some 8) 0 0 false t_CMSVersion;
     Member (Some 68) 0 0 false t_DigestAlgorithmIdentifiers;
     Member (Some 64) 0 0 false t_EncapsulatedContentInfo;
     Member (Some 2) (-1) 2 false t_CertificateSet;
     Member (Some 6) (-1) 1 false t_RevocationInfoChoices;
     Member (Some 68) 0 0 false t_SignerInfos].

(** src/asn1/asn1c/EncapsulatedContentInfoPKCS7.c:44-58, members EncapsulatedContentInfoPKCS7.c:10-29, table EncapsulatedContentInfoPKCS7.c:33-36. *)
Definition t_EncapsulatedContentInfoPKCS7 : ty :=
  TSeq [64] [(24, 0%nat); (2, 1%nat)]
    [Member (Some 24) 0 0 false t_ContentType;
     Member (Some 2) 1 1 false t_ANY].

(** src/asn1/asn1c/SignedDataPKCS7.c:84-98, members SignedDataPKCS7.c:10-65, table SignedDataPKCS7.c:69-76. *)
Definition t_SignedDataPKCS7 : ty :=
  TSeq [64] [(8, 0%nat); (64, 2%nat); (68, 1%nat); (68, 5%nat); (2, 3%nat); (6, 4%nat)]
    [Member (Some 8) 0 0 false t_CMSVersion;
     Member (Some 68) 0 0 false t_DigestAlgorithmIdentifiers;
     Member (Some 64) 0 0 false t_EncapsulatedContentInfoPKCS7;
     Member (Some 2) (-1) 2 false t_CertificateSet;
     Member (Some 6) (-1) 1 false t_RevocationInfoChoices;
     Member (Some 68) 0 0 false t_SignerInfos].

(** src/asn1/asn1c/MessageDigest.c:17-30. *)
Definition t_MessageDigest : ty :=
  TString STR [16] [16].

(** The types whose decoder is called on bytes received:
    src/object/roa.c:12, manifest.c:28, certificate.c:1100 and 1148,
    src/asn1/content_info.c:33, signed_data.c:124, 147, 396, 437, 485. *)
Definition decoded_types : list ty :=
  [t_RouteOriginAttestation; t_Manifest; t_IPAddrBlocks; t_ASIdentifiers; t_ContentInfo; t_SignedData; t_SignedDataPKCS7; t_OBJECT_IDENTIFIER; t_MessageDigest].
