(** The constraint functions in the descriptors of the types decoded
    (general_constraints, src/asn1/asn1c/constr_TYPE.h:86-122), as data; see
    Asn1Check.v.  The fields of a member are: optional, its own constraint, its
    type's. *)
From Verif Require Import Base Asn1Check.

(** src/asn1/asn1c/INTEGER.c:30-41. *)
Definition k_INTEGER : constraint :=
  KNone.

(** src/asn1/asn1c/ASId.c:17-30. *)
Definition k_ASId : constraint :=
  KNone.

(** src/asn1/asn1c/OCTET_STRING.c:42-55. *)
Definition k_OCTET_STRING : constraint :=
  KNone.

(** src/asn1/asn1c/IPAddress.c:17-30. *)
Definition k_IPAddress : constraint :=
  KBits.

(** src/asn1/asn1c/ROAIPAddress.c:44-58, members ROAIPAddress.c:10-29. *)
Definition k_ROAIPAddress : constraint :=
  KSeq [KMember 0 None k_IPAddress;
     KMember 1 None k_INTEGER].

(** src/asn1/asn1c/ROAIPAddressFamily.c:199-213, members ROAIPAddressFamily.c:179-189. *)
Definition k_ROAIPAddressFamily_addresses : constraint :=
  KOf k_ROAIPAddress.

(** src/asn1/asn1c/ROAIPAddressFamily.c:249-263, members ROAIPAddressFamily.c:215-234, ROAIPAddressFamily.c:128-151 [memb_addressFamily_constraint_1], ROAIPAddressFamily.c:154-177 [memb_addresses_constraint_1]. *)
Definition k_ROAIPAddressFamily : constraint :=
  KSeq [KMember 0 (Some (KSize 2 3)) k_OCTET_STRING;
     KMember 0 (Some (KAtLeast 1 k_ROAIPAddressFamily_addresses)) k_ROAIPAddressFamily_addresses].

(** src/asn1/asn1c/RouteOriginAttestation.c:83-97, members RouteOriginAttestation.c:63-73. *)
Definition k_RouteOriginAttestation_ipAddrBlocks : constraint :=
  KOf k_ROAIPAddressFamily.

(** src/asn1/asn1c/RouteOriginAttestation.c:144-158, members RouteOriginAttestation.c:99-128, RouteOriginAttestation.c:14-37 [memb_ipAddrBlocks_constraint_1]. *)
Definition k_RouteOriginAttestation : constraint :=
  KSeq [KMember 1 None k_INTEGER;
     KMember 0 None k_ASId;
     KMember 0 (Some (KAtLeast 1 k_RouteOriginAttestation_ipAddrBlocks)) k_RouteOriginAttestation_ipAddrBlocks].

(** src/asn1/asn1c/GeneralizedTime.c:68-81. *)
Definition k_GeneralizedTime : constraint :=
  KTime.

(** src/asn1/asn1c/OBJECT_IDENTIFIER.c:34-47. *)
Definition k_OBJECT_IDENTIFIER : constraint :=
  KOid.

(** src/asn1/asn1c/IA5String.c:24-37. *)
Definition k_IA5String : constraint :=
  KIA5.

(** src/asn1/asn1c/BIT_STRING.c:34-47. *)
Definition k_BIT_STRING : constraint :=
  KBits.

(** src/asn1/asn1c/FileAndHash.c:44-58, members FileAndHash.c:10-29. *)
Definition k_FileAndHash : constraint :=
  KSeq [KMember 0 None k_IA5String;
     KMember 0 None k_BIT_STRING].

(** src/asn1/asn1c/Manifest.c:103-117, members Manifest.c:83-93. *)
Definition k_Manifest_fileList : constraint :=
  KOf k_FileAndHash.

(** src/asn1/asn1c/Manifest.c:194-208, members Manifest.c:119-175, Manifest.c:14-38 [memb_manifestNumber_constraint_1], Manifest.c:41-57 [memb_fileList_constraint_1]. *)
Definition k_Manifest : constraint :=
  KSeq [KMember 1 None k_INTEGER;
     KMember 0 (Some (KNonNegative)) k_INTEGER;
     KMember 0 None k_GeneralizedTime;
     KMember 0 None k_GeneralizedTime;
     KMember 0 None k_OBJECT_IDENTIFIER;
     KMember 0 (Some (k_Manifest_fileList)) k_Manifest_fileList].

(** src/asn1/asn1c/NULL.c:27-38. *)
Definition k_NULL : constraint :=
  KNone.

(** src/asn1/asn1c/IPAddressRange.c:44-58, members IPAddressRange.c:10-29. *)
Definition k_IPAddressRange : constraint :=
  KSeq [KMember 0 None k_IPAddress;
     KMember 0 None k_IPAddress].

(** src/asn1/asn1c/IPAddressOrRange.c:43-55, members IPAddressOrRange.c:10-29. *)
Definition k_IPAddressOrRange : constraint :=
  KChoice [KMember 0 None k_IPAddress;
     KMember 0 None k_IPAddressRange].

(** src/asn1/asn1c/IPAddressChoice.c:32-46, members IPAddressChoice.c:12-22. *)
Definition k_IPAddressChoice_addressesOrRanges : constraint :=
  KOf k_IPAddressOrRange.

(** src/asn1/asn1c/IPAddressChoice.c:81-93, members IPAddressChoice.c:48-67. *)
Definition k_IPAddressChoice : constraint :=
  KChoice [KMember 0 None k_NULL;
     KMember 0 None k_IPAddressChoice_addressesOrRanges].

(** src/asn1/asn1c/IPAddressFamily.c:71-85, members IPAddressFamily.c:36-55, IPAddressFamily.c:11-34 [memb_addressFamily_constraint_1]. *)
Definition k_IPAddressFamily : constraint :=
  KSeq [KMember 0 (Some (KSize 2 3)) k_OCTET_STRING;
     KMember 0 None k_IPAddressChoice].

(** src/asn1/asn1c/IPAddrBlocks.c:31-45, members IPAddrBlocks.c:12-22. *)
Definition k_IPAddrBlocks : constraint :=
  KOf k_IPAddressFamily.

(** src/asn1/asn1c/ASRange.c:44-58, members ASRange.c:10-29. *)
Definition k_ASRange : constraint :=
  KSeq [KMember 0 None k_ASId;
     KMember 0 None k_ASId].

(** src/asn1/asn1c/ASIdOrRange.c:43-55, members ASIdOrRange.c:10-29. *)
Definition k_ASIdOrRange : constraint :=
  KChoice [KMember 0 None k_ASId;
     KMember 0 None k_ASRange].

(** src/asn1/asn1c/ASIdentifierChoice.c:32-46, members ASIdentifierChoice.c:12-22. *)
Definition k_ASIdentifierChoice_asIdsOrRanges : constraint :=
  KOf k_ASIdOrRange.

(** src/asn1/asn1c/ASIdentifierChoice.c:81-93, members ASIdentifierChoice.c:48-67. *)
Definition k_ASIdentifierChoice : constraint :=
  KChoice [KMember 0 None k_NULL;
     KMember 0 None k_ASIdentifierChoice_asIdsOrRanges].

(** src/asn1/asn1c/ASIdentifiers.c:44-58, members ASIdentifiers.c:10-29. *)
Definition k_ASIdentifiers : constraint :=
  KSeq [KMember 2 None k_ASIdentifierChoice;
     KMember 1 None k_ASIdentifierChoice].

(** src/asn1/asn1c/ContentType.c:17-30. *)
Definition k_ContentType : constraint :=
  KOid.

(** src/asn1/asn1c/ANY.c:31-39. *)
Definition k_ANY : constraint :=
  KNone.

(** src/asn1/asn1c/ContentInfo.c:95-109, members ContentInfo.c:61-80. *)
Definition k_ContentInfo : constraint :=
  KSeq [KMember 0 None k_ContentType;
     KMember 0 None k_ANY].

(** src/asn1/asn1c/CMSVersion.c:17-30. *)
Definition k_CMSVersion : constraint :=
  KNone.

(** src/asn1/asn1c/DigestAlgorithmIdentifier.c:17-31, members AlgorithmIdentifier.c:10-29. *)
Definition k_DigestAlgorithmIdentifier : constraint :=
  KSeq [KMember 0 None k_OBJECT_IDENTIFIER;
     KMember 1 None k_ANY].

(** src/asn1/asn1c/DigestAlgorithmIdentifiers.c:31-45, members DigestAlgorithmIdentifiers.c:12-22. *)
Definition k_DigestAlgorithmIdentifiers : constraint :=
  KOf k_DigestAlgorithmIdentifier.

(** src/asn1/asn1c/EncapsulatedContentInfo.c:105-119, members EncapsulatedContentInfo.c:71-90. *)
Definition k_EncapsulatedContentInfo : constraint :=
  KSeq [KMember 0 None k_ContentType;
     KMember 1 None k_OCTET_STRING].

(** src/asn1/asn1c/CertificateSet.c:73-87, members CertificateSet.c:54-64. *)
Definition k_CertificateSet : constraint :=
  KOf k_ANY.

(** src/asn1/asn1c/Version.c:17-30. *)
Definition k_Version : constraint :=
  KNone.

(** src/asn1/asn1c/AlgorithmIdentifier.c:43-57, members AlgorithmIdentifier.c:10-29. *)
Definition k_AlgorithmIdentifier : constraint :=
  KSeq [KMember 0 None k_OBJECT_IDENTIFIER;
     KMember 1 None k_ANY].

(** src/asn1/asn1c/AttributeType.c:17-30. *)
Definition k_AttributeType : constraint :=
  KOid.

(** src/asn1/asn1c/AttributeValue.c:14-25. *)
Definition k_AttributeValue : constraint :=
  KNone.

(** src/asn1/asn1c/AttributeTypeAndValue.c:43-57, members AttributeTypeAndValue.c:10-29. *)
Definition k_AttributeTypeAndValue : constraint :=
  KSeq [KMember 0 None k_AttributeType;
     KMember 0 None k_AttributeValue].

(** src/asn1/asn1c/RelativeDistinguishedName.c:29-43, members RelativeDistinguishedName.c:10-20. *)
Definition k_RelativeDistinguishedName : constraint :=
  KOf k_AttributeTypeAndValue.

(** src/asn1/asn1c/RDNSequence.c:31-45, members RDNSequence.c:12-22. *)
Definition k_RDNSequence : constraint :=
  KOf k_RelativeDistinguishedName.

(** src/asn1/asn1c/Name.c:33-45, members Name.c:10-20. *)
Definition k_Name : constraint :=
  KChoice [KMember 0 None k_RDNSequence].

(** src/asn1/asn1c/UTCTime.c:36-49. *)
Definition k_UTCTime : constraint :=
  KUTCTime.

(** src/asn1/asn1c/Time.c:43-55, members Time.c:10-29. *)
Definition k_Time : constraint :=
  KChoice [KMember 0 None k_UTCTime;
     KMember 0 None k_GeneralizedTime].

(** src/asn1/asn1c/CertificateSerialNumber.c:17-30. *)
Definition k_CertificateSerialNumber : constraint :=
  KNone.

(** src/asn1/asn1c/BOOLEAN.c:27-38. *)
Definition k_BOOLEAN : constraint :=
  KNone.

(** src/asn1/asn1c/Extension.c:79-93, members Extension.c:34-63. *)
Definition k_Extension : constraint :=
  KSeq [KMember 0 None k_OBJECT_IDENTIFIER;
     KMember 1 None k_BOOLEAN;
     KMember 0 None k_OCTET_STRING].

(** src/asn1/asn1c/Extensions.c:31-45, members Extensions.c:12-22. *)
Definition k_Extensions : constraint :=
  KOf k_Extension.

(** src/asn1/asn1c/TBSCertList.c:58-72, members TBSCertList.c:12-40. *)
Definition k_TBSCertList_Member : constraint :=
  KSeq [KMember 0 None k_CertificateSerialNumber;
     KMember 0 None k_Time;
     KMember 1 None k_Extensions].

(** src/asn1/asn1c/TBSCertList.c:94-108, members TBSCertList.c:74-84. *)
Definition k_TBSCertList_revokedCertificates : constraint :=
  KOf k_TBSCertList_Member.

(** src/asn1/asn1c/TBSCertList.c:196-210, members TBSCertList.c:110-174. *)
Definition k_TBSCertList : constraint :=
  KSeq [KMember 1 None k_Version;
     KMember 0 None k_AlgorithmIdentifier;
     KMember 0 None k_Name;
     KMember 0 None k_Time;
     KMember 3 None k_Time;
     KMember 2 None k_TBSCertList_revokedCertificates;
     KMember 1 None k_Extensions].

(** src/asn1/asn1c/CertificateList.c:54-68, members CertificateList.c:10-38. *)
Definition k_CertificateList : constraint :=
  KSeq [KMember 0 None k_TBSCertList;
     KMember 0 None k_AlgorithmIdentifier;
     KMember 0 None k_BIT_STRING].

(** src/asn1/asn1c/OtherRevocationInfoFormat.c:43-57, members OtherRevocationInfoFormat.c:10-29. *)
Definition k_OtherRevocationInfoFormat : constraint :=
  KSeq [KMember 0 None k_OBJECT_IDENTIFIER;
     KMember 0 None k_ANY].

(** src/asn1/asn1c/RevocationInfoChoice.c:43-55, members RevocationInfoChoice.c:10-29. *)
Definition k_RevocationInfoChoice : constraint :=
  KChoice [KMember 0 None k_CertificateList;
     KMember 0 None k_OtherRevocationInfoFormat].

(** src/asn1/asn1c/RevocationInfoChoices.c:29-43, members RevocationInfoChoices.c:10-20. *)
Definition k_RevocationInfoChoices : constraint :=
  KOf k_RevocationInfoChoice.

(** src/asn1/asn1c/IssuerAndSerialNumber.c:44-58, members IssuerAndSerialNumber.c:10-29. *)
Definition k_IssuerAndSerialNumber : constraint :=
  KSeq [KMember 0 None k_Name;
     KMember 0 None k_CertificateSerialNumber].

(** src/asn1/asn1c/CMSSubjectKeyIdentifier.c:17-30. *)
Definition k_CMSSubjectKeyIdentifier : constraint :=
  KNone.

(** src/asn1/asn1c/SignerIdentifier.c:43-55, members SignerIdentifier.c:10-29. *)
Definition k_SignerIdentifier : constraint :=
  KChoice [KMember 0 None k_IssuerAndSerialNumber;
     KMember 0 None k_CMSSubjectKeyIdentifier].

(** src/asn1/asn1c/CMSAttributeValue.c:14-25. *)
Definition k_CMSAttributeValue : constraint :=
  KNone.

(** src/asn1/asn1c/CMSAttribute.c:98-112, members CMSAttribute.c:78-88. *)
Definition k_CMSAttribute_attrValues : constraint :=
  KOf k_CMSAttributeValue.

(** src/asn1/asn1c/CMSAttribute.c:148-162, members CMSAttribute.c:114-133. *)
Definition k_CMSAttribute : constraint :=
  KSeq [KMember 0 None k_OBJECT_IDENTIFIER;
     KMember 0 None k_CMSAttribute_attrValues].

(** src/asn1/asn1c/SignedAttributes.c:29-43, members SignedAttributes.c:10-20. *)
Definition k_SignedAttributes : constraint :=
  KOf k_CMSAttribute.

(** src/asn1/asn1c/SignatureAlgorithmIdentifier.c:17-31, members AlgorithmIdentifier.c:10-29. *)
Definition k_SignatureAlgorithmIdentifier : constraint :=
  KSeq [KMember 0 None k_OBJECT_IDENTIFIER;
     KMember 1 None k_ANY].

(** src/asn1/asn1c/SignatureValue.c:17-30. *)
Definition k_SignatureValue : constraint :=
  KNone.

(** src/asn1/asn1c/UnsignedAttributes.c:29-43, members UnsignedAttributes.c:10-20. *)
Definition k_UnsignedAttributes : constraint :=
  KOf k_CMSAttribute.

(** src/asn1/asn1c/SignerInfo.c:95-109, members SignerInfo.c:10-74. *)
Definition k_SignerInfo : constraint :=
  KSeq [KMember 0 None k_CMSVersion;
     KMember 0 None k_SignerIdentifier;
     KMember 0 None k_DigestAlgorithmIdentifier;
     KMember 1 None k_SignedAttributes;
     KMember 0 None k_SignatureAlgorithmIdentifier;
     KMember 0 None k_SignatureValue;
     KMember 1 None k_UnsignedAttributes].

(** src/asn1/asn1c/SignerInfos.c:29-43, members SignerInfos.c:10-20. *)
Definition k_SignerInfos : constraint :=
  KOf k_SignerInfo.

(** src/asn1/asn1c/SignedData.c:84-98, members SignedData.c:10-65. *)
Definition k_SignedData : constraint :=
  KSeq [KMember 0 None k_CMSVersion;
     KMember 0 None k_DigestAlgorithmIdentifiers;
     KMember 0 None k_EncapsulatedContentInfo;
     KMember 2 None k_CertificateSet;
     KMember 1 None k_RevocationInfoChoices;
     KMember 0 None k_SignerInfos].

(** src/asn1/asn1c/EncapsulatedContentInfoPKCS7.c:44-58, members EncapsulatedContentInfoPKCS7.c:10-29. *)
Definition k_EncapsulatedContentInfoPKCS7 : constraint :=
  KSeq [KMember 0 None k_ContentType;
     KMember 1 None k_ANY].

(** src/asn1/asn1c/SignedDataPKCS7.c:84-98, members SignedDataPKCS7.c:10-65. *)
Definition k_SignedDataPKCS7 : constraint :=
  KSeq [KMember 0 None k_CMSVersion;
     KMember 0 None k_DigestAlgorithmIdentifiers;
     KMember 0 None k_EncapsulatedContentInfoPKCS7;
     KMember 2 None k_CertificateSet;
     KMember 1 None k_RevocationInfoChoices;
     KMember 0 None k_SignerInfos].

(** src/asn1/asn1c/MessageDigest.c:17-30. *)
Definition k_MessageDigest : constraint :=
  KNone.

