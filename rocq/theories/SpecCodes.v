(** Code tables of the EMV and ISO specifications, written as lists of
    (code, meaning, text shown).  Nothing here refers to the model except the
    constructors of the enumerations. *)

From Coq Require Import NArith List String.
From Verif Require Import ModelEnums.
Import ListNotations.
Local Open Scope N_scope.
Local Open Scope string_scope.

(** BER tag classes (bits 8-7 of the first tag byte; EMV Book 3, Annex B1). *)
Definition tag_class_codes : list (N * tag_class * string) := [
  (0x00, TagClass_Universal, "Universal");
  (0x01, TagClass_Application, "Application");
  (0x02, TagClass_ContextSpecific, "Context-Specific");
  (0x03, TagClass_Private, "Private")].

(** Terminal Type, tag 9F35 (EMV Book 4, Annex A1). *)
Definition terminal_type_codes : list (N * terminal_type * string) := [
  (0x11, TerminalType_AttendedOnlineOnlyFinancialInstitution, "Attended, Online-Only, Controlled by a Financial Institution");
  (0x12, TerminalType_AttendedOfflineWithOnlineCapabilitiesFinancialInstitution, "Attended, Offline With Online Capabilities, Controlled by a Financial Institution");
  (0x13, TerminalType_AttendedOfflineOnlyFinancialInstitution, "Attended, Offline-Only, Controlled by a Financial Institution");
  (0x14, TerminalType_UnattendedOnlineOnlyFinancialInstitution, "Unattended, Online-Only, Controlled by a Financial Institution (ATM if it supports Cash Disbursement)");
  (0x15, TerminalType_UnattendedOfflineWithOnlineCapabilitiesFinancialInstitution, "Unattended, Offline With Online Capabilities, Controlled by a Financial Institution (ATM if it supports Cash Disbursement)");
  (0x16, TerminalType_UnattendedOfflineOnlyFinancialInstitution, "Unattended, Offline-Only, Controlled by a Financial Institution (ATM if it supports Cash Disbursement)");
  (0x21, TerminalType_AttendedOnlineOnlyMerchant, "Attended, Online-Only, Controlled by a Merchant");
  (0x22, TerminalType_AttendedOfflineWithOnlineCapabilitiesMerchant, "Attended, Offline With Online Capabilities, Controlled by a Merchant");
  (0x23, TerminalType_AttendedOfflineOnlyMerchant, "Attended, Offline-Only, Controlled by a Merchant");
  (0x24, TerminalType_UnattendedOnlineOnlyMerchant, "Unattended, Online-Only, Controlled by a Merchant");
  (0x25, TerminalType_UnattendedOfflineWithOnlineCapabilitiesMerchant, "Unattended, Offline With Online Capabilities, Controlled by a Merchant");
  (0x26, TerminalType_UnattendedOfflineOnlyMerchant, "Unattended, Offline-Only, Controlled by a Merchant");
  (0x34, TerminalType_UnattendedOnlineOnlyCardholder, "Unattended, Online-Only, Controlled by the Cardholder (self-attended, home PC, etc.)");
  (0x35, TerminalType_UnattendedOfflineWithOnlineCapabilitiesCardholder, "Unattended, Offline With Online Capabilities, Controlled by the Cardholder (self-attended, home PC, etc.)");
  (0x36, TerminalType_UnattendedOfflineOnlyCardholder, "Unattended, Offline-Only, Controlled by the Cardholder (self-attended, home PC, etc.)")].

(** Transaction Type, tag 9C (first two digits of the ISO 8583 processing code). *)
Definition transaction_type_codes : list (N * transaction_type * string) := [
  (0x00, TransactionType_Purchase, "Purchase");
  (0x01, TransactionType_CashAdvance, "Cash Advance");
  (0x02, TransactionType_Void, "Void");
  (0x09, TransactionType_CashbackPurchase, "Purchase With Cashback");
  (0x20, TransactionType_Refund, "Refund");
  (0x31, TransactionType_BalanceInquiry, "Balance Inquiry");
  (0x38, TransactionType_MiniStatement, "Mini Statement");
  (0x40, TransactionType_FundTransfer, "Fund Transfer")].

(** POS Entry Mode, tag 9F39 (first two digits of the ISO 8583 POS entry mode). *)
Definition pos_entry_mode_codes : list (N * pos_entry_mode * string) := [
  (0x00, PosEntryMode_Unknown, "Unknown");
  (0x01, PosEntryMode_Manual, "Manual (keyed entry)");
  (0x02, PosEntryMode_MagneticStripe, "Magnetic Stripe Reader (MSR)");
  (0x03, PosEntryMode_Barcode, "Barcode");
  (0x04, PosEntryMode_Ocr, "Optical Character Recognition (OCR)");
  (0x05, PosEntryMode_ContactIcc, "Integrated Circuit Chip (ICC) - Data Reliable (contact/insert transaction) (CVV can be checked)");
  (0x06, PosEntryMode_Track1, "Magnetic Stripe Track 1");
  (0x07, PosEntryMode_ContactlessIcc, "Contactless Chip (contactless/tap transaction)");
  (0x08, PosEntryMode_ContactlessIccMappingApplied, "Contactless Chip (contactless/tap transaction) - Contactless Mapping Service Applied");
  (0x09, PosEntryMode_EcommerceIncludingRemoteChip, "E-Commerce - Including Remote Chip");
  (0x10, PosEntryMode_CredentialsOnFile, "Merchant Has Cardholder Credentials On File (token, recurring payment, etc.)");
  (0x80, PosEntryMode_Fallback, "ICC Could Not Process - Fallback to MSR");
  (0x81, PosEntryMode_EcommerceIncludingChip, "E-Commerce - Including Chip");
  (0x82, PosEntryMode_ViaServer, "Via a Server (issuer, acquirer, third-party vendor)");
  (0x83, PosEntryMode_ContactlessIcc, "Contactless Chip (contactless/tap transaction)");
  (0x90, PosEntryMode_MagneticStripeFull, "Magnetic Stripe Reader (MSR) - Full Track Data - Data Reliable (CVV can be checked)");
  (0x91, PosEntryMode_ContactlessMagneticStripe, "Contactless Magnetic Stripe Data (MSD)");
  (0x92, PosEntryMode_ContactlessIccMappingApplied, "Contactless Chip (contactless/tap transaction) - Contactless Mapping Service Applied");
  (0x95, PosEntryMode_ContactIccUnreliable, "Integrated Circuit Chip (ICC) - Data Unreliable (contact/insert transaction) (CVV cannot be checked)")].

(** Authorisation Response Code, tag 8A (ISO 8583). *)
Definition arc_codes : list (string * authorisation_response_code * string) := [
  ("00", AuthorisationResponseCode_Approval, "Approval");
  ("01", AuthorisationResponseCode_Call, "Call");
  ("02", AuthorisationResponseCode_CallSpecial, "Call - Special Conditions");
  ("03", AuthorisationResponseCode_TerminalIdError, "Terminal ID Error");
  ("04", AuthorisationResponseCode_HoldCall, "Hold Card - Call");
  ("05", AuthorisationResponseCode_Decline, "Decline - Do Not Honour");
  ("06", AuthorisationResponseCode_Error, "Error");
  ("07", AuthorisationResponseCode_HoldCallSpecial, "Hold Card - Call - Special Conditions");
  ("08", AuthorisationResponseCode_HonourWithId, "Honour With Identification");
  ("09", AuthorisationResponseCode_NoOriginalTransaction, "No Original Transaction");
  ("10", AuthorisationResponseCode_PartialApproval, "Partial Approval");
  ("11", AuthorisationResponseCode_ApprovalVip, "Approved (VIP)");
  ("12", AuthorisationResponseCode_InvalidTransaction, "Invalid Transaction");
  ("13", AuthorisationResponseCode_InvalidAmount, "Invalid Amount");
  ("14", AuthorisationResponseCode_InvalidCardNumber, "Invalid Card Number");
  ("15", AuthorisationResponseCode_NoSuchIssuer, "No Such Issuer");
  ("16", AuthorisationResponseCode_ApprovedUpdateTrack3, "Approved - Update Track 3");
  ("17", AuthorisationResponseCode_CustomerCancellation, "Customer Cancellation");
  ("18", AuthorisationResponseCode_CustomerDispute, "Customer Dispute");
  ("19", AuthorisationResponseCode_RetryTransaction, "Retry Transaction");
  ("20", AuthorisationResponseCode_InvalidResponse, "Invalid Response");
  ("21", AuthorisationResponseCode_NoActionTaken, "No Action Taken");
  ("22", AuthorisationResponseCode_SuspectedMalfunction, "Suspected Malfunction");
  ("23", AuthorisationResponseCode_InvalidMinimumAmount, "Invalid Minimum Amount");
  ("24", AuthorisationResponseCode_FileUpdateNotSupported, "File Update Not Supported");
  ("25", AuthorisationResponseCode_InvalidIccData, "Invalid ICC Data");
  ("26", AuthorisationResponseCode_DuplicateFileUpdateRecord, "Duplicate File Update Record");
  ("27", AuthorisationResponseCode_FileUpdateFieldEditError, "File Update Field Edit Error");
  ("28", AuthorisationResponseCode_FileUpdateFileLockedOut, "File Update File Locked Out");
  ("29", AuthorisationResponseCode_FileUpdateNotSuccessful, "File Update Not Successful");
  ("30", AuthorisationResponseCode_FormatError, "Format Error");
  ("31", AuthorisationResponseCode_BankNotSupportedBySwitch, "Bank Not Supported By Switch");
  ("32", AuthorisationResponseCode_CompletedPartially, "Completed Partially");
  ("33", AuthorisationResponseCode_ExpiredCard, "Expired Card");
  ("54", AuthorisationResponseCode_ExpiredCard, "Expired Card");
  ("34", AuthorisationResponseCode_SuspectedFraud, "Suspected Fraud");
  ("59", AuthorisationResponseCode_SuspectedFraud, "Suspected Fraud");
  ("35", AuthorisationResponseCode_CardAcceptorContactAcquirer, "Card Acceptor, Contact Acquirer");
  ("60", AuthorisationResponseCode_CardAcceptorContactAcquirer, "Card Acceptor, Contact Acquirer");
  ("36", AuthorisationResponseCode_RestrictedCard, "Restricted Card");
  ("62", AuthorisationResponseCode_RestrictedCard, "Restricted Card");
  ("37", AuthorisationResponseCode_CardAcceptorCallAcquirerSecurity, "Card Acceptor, Call Acquirer Security");
  ("66", AuthorisationResponseCode_CardAcceptorCallAcquirerSecurity, "Card Acceptor, Call Acquirer Security");
  ("38", AuthorisationResponseCode_AllowablePinRetriesExceeded, "Allowable PIN Retries Exceeded");
  ("75", AuthorisationResponseCode_AllowablePinRetriesExceeded, "Allowable PIN Retries Exceeded");
  ("39", AuthorisationResponseCode_NoCreditAccount, "No Credit Account");
  ("40", AuthorisationResponseCode_RequestedFunctionNotSupported, "Requested Function Not Supported");
  ("41", AuthorisationResponseCode_LostCard, "Lost Card");
  ("42", AuthorisationResponseCode_NoUniversalAccount, "No Universal Account");
  ("43", AuthorisationResponseCode_StolenCard, "Stolen Card");
  ("44", AuthorisationResponseCode_NoInvestmentAccount, "No Investment Account");
  ("51", AuthorisationResponseCode_InsufficientFunds, "Insufficient Funds");
  ("52", AuthorisationResponseCode_NoChequingAccount, "No Chequing Account");
  ("53", AuthorisationResponseCode_NoSavingsAccount, "No Savings Account");
  ("55", AuthorisationResponseCode_IncorrectPin, "Incorrect PIN");
  ("56", AuthorisationResponseCode_NoCardRecord, "No Card Record");
  ("57", AuthorisationResponseCode_TransactionNotAllowedCardholder, "Transaction Not Allowed For Cardholder");
  ("58", AuthorisationResponseCode_TransactionNotAllowedTerminal, "Transaction Not Allowed For Terminal");
  ("61", AuthorisationResponseCode_DebitCashbackWithdrawalLimitDecline, "Debit Cashback Withdrawal Limit Decline");
  ("63", AuthorisationResponseCode_SecurityViolation, "Security Violation");
  ("64", AuthorisationResponseCode_OriginalAmountIncorrect, "Original Amount Incorrect");
  ("65", AuthorisationResponseCode_DeclineInsertCard, "Decline - Insert Card (often due to too many contactless transactions)");
  ("67", AuthorisationResponseCode_HoldCallAtm, "ATM Hard Card Capture");
  ("68", AuthorisationResponseCode_ResponseReceivedTooLate, "Response Received Too Late");
  ("91", AuthorisationResponseCode_IssuerTimeout, "Issuer Timeout");
  ("92", AuthorisationResponseCode_IssuerRoutingProblem, "Issuer Routing Problem");
  ("93", AuthorisationResponseCode_TransactionNotCompletedLawViolation, "Transaction Not Completed - Law Violation");
  ("94", AuthorisationResponseCode_DuplicateTransmission, "Duplicate Transmission");
  ("95", AuthorisationResponseCode_ReconciliationError, "Reconciliation Error");
  ("96", AuthorisationResponseCode_SystemMalfunction, "System Malfunction")].

(** CVM codes: bits 6-1 of the first byte of a CV rule (EMV Book 3, Annex C3, table 43). *)
Definition cv_method_codes : list (N * cv_method * string) := [
  (0x00, CvMethod_FailCvmProcessing, "Fail CVM processing");
  (0x01, CvMethod_PlaintextPin, "Plaintext PIN verification performed by ICC");
  (0x02, CvMethod_EncipheredPinOnline, "Enciphered PIN verified online");
  (0x03, CvMethod_PlaintextPinWithSignature, "Plaintext PIN verification performed by ICC and signature (paper)");
  (0x04, CvMethod_EncipheredPin, "Enciphered PIN verification performed by ICC");
  (0x05, CvMethod_EncipheredPinWithSignature, "Enciphered PIN verification performed by ICC and signature (paper)");
  (0x1E, CvMethod_Signature, "Signature (paper)");
  (0x1F, CvMethod_NoCvmRequired, "No CVM required");
  (0x3F, CvMethod_NoCvmPerformed, "No CVM performed")].

(** CVM condition codes (EMV Book 3, Annex C3, table 44). *)
Definition cvm_condition_codes : list (N * cvm_condition * string) := [
  (0x00, CvmCondition_Always, "Always");
  (0x01, CvmCondition_UnattendedCash, "If unattended cash");
  (0x02, CvmCondition_NotUnattendedNotManualNotCashback, "If not unattended cash and not manual cash and not purchase with cashback");
  (0x03, CvmCondition_TerminalSupported, "If terminal supports the CVM");
  (0x04, CvmCondition_Manual, "If manual cash");
  (0x05, CvmCondition_Cashback, "If purchase with cashback");
  (0x06, CvmCondition_InApplicationCurrencyUnderX, "If transaction is in the application currency and is under X value");
  (0x07, CvmCondition_InApplicationCurrencyOverX, "If transaction is in the application currency and is over X value");
  (0x08, CvmCondition_InApplicationCurrencyUnderY, "If transaction is in the application currency and is under Y value");
  (0x09, CvmCondition_InApplicationCurrencyOverY, "If transaction is in the application currency and is over Y value")].

(** CVM Result, third byte of tag 9F34 (EMV Book 4, Annex A4). *)
Definition cvm_result_codes : list (N * cvm_result * string) := [
  (0x00, CvmResult_Unknown, "Unknown");
  (0x01, CvmResult_Failed, "Failed");
  (0x02, CvmResult_Successful, "Successful")].

(** CVR, type of cryptogram returned in the first GENERATE AC (EMV Book 3, Annex C9.3). *)
Definition gen_ac1_codes : list (N * gen_ac1_application_cryptogram_type * string) := [
  (0x00, GenAc1ApplicationCryptogramType_Aac, "AAC (Application Authentication Cryptogram)");
  (0x01, GenAc1ApplicationCryptogramType_Tc, "TC (Transaction Certificate)");
  (0x02, GenAc1ApplicationCryptogramType_Arqc, "ARQC (Authorization Request Cryptogram)");
  (0x03, GenAc1ApplicationCryptogramType_Rfu, "RFU (Reserved For Use)")].

(** CVR, type of cryptogram returned in the second GENERATE AC (EMV Book 3, Annex C9.3). *)
Definition gen_ac2_codes : list (N * gen_ac2_application_cryptogram_type * string) := [
  (0x00, GenAc2ApplicationCryptogramType_Aac, "AAC (Application Authentication Cryptogram)");
  (0x01, GenAc2ApplicationCryptogramType_Tc, "TC (Transaction Certificate)");
  (0x02, GenAc2ApplicationCryptogramType_SecondGenAcNotRequested, "Second GENERATE AC not requested");
  (0x03, GenAc2ApplicationCryptogramType_Rfu, "RFU (Reserved For Use)")].

(** CCI, format code (EMV Book 3, Annex C9.1). *)
Definition format_code_codes : list (N * format_code * string) := [
  (0x0A, FormatCode_A, "Format A")].

(** CCI, cryptogram version (EMV Book 3, Annex C9.1). *)
Definition cryptogram_version_codes : list (N * cryptogram_version * string) := [
  (0x05, CryptogramVersion_TripleDes, "Triple DES (3DES)");
  (0x06, CryptogramVersion_Aes, "AES")].

(** Service code digits (ISO/IEC 7813; references/ServiceCodeChart.jpg). *)
(* Position 1: interchange rules and technology. *)
Definition service_digit_1 : list (N * (interchange * technology)) := [
  (0, (Interchange_Rfu, Technology_MagneticStripeOnly));
  (1, (Interchange_International, Technology_MagneticStripeOnly));
  (2, (Interchange_International, Technology_IntegratedCircuitCard));
  (3, (Interchange_Rfu, Technology_MagneticStripeOnly));
  (4, (Interchange_Rfu, Technology_MagneticStripeOnly));
  (5, (Interchange_National, Technology_MagneticStripeOnly));
  (6, (Interchange_National, Technology_IntegratedCircuitCard));
  (7, (Interchange_Private, Technology_MagneticStripeOnly));
  (8, (Interchange_Rfu, Technology_MagneticStripeOnly));
  (9, (Interchange_Test, Technology_MagneticStripeOnly))].
(* Position 2: authorisation processing. *)
Definition service_digit_2 : list (N * authorisation_processing) := [
  (0, AuthorisationProcessing_Normal);
  (1, AuthorisationProcessing_Rfu);
  (2, AuthorisationProcessing_ByIssuer);
  (3, AuthorisationProcessing_Rfu);
  (4, AuthorisationProcessing_ByIssuerUnlessExplicitAgreement);
  (5, AuthorisationProcessing_Rfu);
  (6, AuthorisationProcessing_Rfu);
  (7, AuthorisationProcessing_Rfu);
  (8, AuthorisationProcessing_Rfu);
  (9, AuthorisationProcessing_Rfu)].
(* Position 3: allowed services and PIN requirements. *)
Definition service_digit_3 : list (N * (allowed_services * pin_requirements)) := [
  (0, (AllowedServices_NoRestrictions, PinRequirements_PinRequired));
  (1, (AllowedServices_NoRestrictions, PinRequirements_None));
  (2, (AllowedServices_GoodsAndServicesOnly, PinRequirements_None));
  (3, (AllowedServices_AtmOnly, PinRequirements_PinRequired));
  (4, (AllowedServices_CashOnly, PinRequirements_None));
  (5, (AllowedServices_GoodsAndServicesOnly, PinRequirements_PinRequired));
  (6, (AllowedServices_NoRestrictions, PinRequirements_PromptIfPinpadPresent));
  (7, (AllowedServices_GoodsAndServicesOnly, PinRequirements_PromptIfPinpadPresent));
  (8, (AllowedServices_Rfu, PinRequirements_None));
  (9, (AllowedServices_Rfu, PinRequirements_None))].
