(** GENERATED by tools/gen.py from the enum macro invocations of /repo.

    Each enum becomes an inductive type; [X_try_from] models the [TryFrom]/[From] impl
    generated by the macros (src/macros.rs:29-39, 89-95, 145-155): the [match] on the
    listed patterns in order; [X_to_u8] models [From<X> for u8] (src/macros.rs:157-161);
    [X_text] models [Display] (src/macros.rs:41-48 etc.). *)

From Coq Require Import NArith List String Bool.
From Verif Require Import Base.
Import ListNotations.
Local Open Scope N_scope.

(** ** [TagClass] *)

(* src/emv/tlv_parsing/mod.rs:468-473 ([enum_repr_fallible!]) *)
Inductive tag_class : Type :=
| TagClass_Universal
| TagClass_Application
| TagClass_ContextSpecific
| TagClass_Private.

(* src/emv/tlv_parsing/mod.rs:468-473: conversion from u8 *)
Definition tag_class_try_from (v : N) : res tag_class :=
  if (v =? 0) then Ok TagClass_Universal else
  if (v =? 1) then Ok TagClass_Application else
  if (v =? 2) then Ok TagClass_ContextSpecific else
  if (v =? 3) then Ok TagClass_Private else
  Err NonCompliant.

(* src/emv/tlv_parsing/mod.rs:468-473: discriminants *)
Definition tag_class_to_u8 (x : tag_class) : N :=
  match x with
  | TagClass_Universal => 0
  | TagClass_Application => 1
  | TagClass_ContextSpecific => 2
  | TagClass_Private => 3
  end.

(* src/emv/tlv_parsing/mod.rs:468-473: display texts *)
Definition tag_class_text (x : tag_class) : str :=
  match x with
  | TagClass_Universal => lit "Universal"
  | TagClass_Application => lit "Application"
  | TagClass_ContextSpecific => lit "Context-Specific"
  | TagClass_Private => lit "Private"
  end.

(** ** [TerminalType] *)

(* src/emv/terminal_type.rs:15-50 ([enum_repr_fallible!]) *)
Inductive terminal_type : Type :=
| TerminalType_AttendedOnlineOnlyFinancialInstitution
| TerminalType_AttendedOfflineWithOnlineCapabilitiesFinancialInstitution
| TerminalType_AttendedOfflineOnlyFinancialInstitution
| TerminalType_UnattendedOnlineOnlyFinancialInstitution
| TerminalType_UnattendedOfflineWithOnlineCapabilitiesFinancialInstitution
| TerminalType_UnattendedOfflineOnlyFinancialInstitution
| TerminalType_AttendedOnlineOnlyMerchant
| TerminalType_AttendedOfflineWithOnlineCapabilitiesMerchant
| TerminalType_AttendedOfflineOnlyMerchant
| TerminalType_UnattendedOnlineOnlyMerchant
| TerminalType_UnattendedOfflineWithOnlineCapabilitiesMerchant
| TerminalType_UnattendedOfflineOnlyMerchant
| TerminalType_UnattendedOnlineOnlyCardholder
| TerminalType_UnattendedOfflineWithOnlineCapabilitiesCardholder
| TerminalType_UnattendedOfflineOnlyCardholder.

(* src/emv/terminal_type.rs:15-50: conversion from u8 *)
Definition terminal_type_try_from (v : N) : res terminal_type :=
  if (v =? 17) then Ok TerminalType_AttendedOnlineOnlyFinancialInstitution else
  if (v =? 18) then Ok TerminalType_AttendedOfflineWithOnlineCapabilitiesFinancialInstitution else
  if (v =? 19) then Ok TerminalType_AttendedOfflineOnlyFinancialInstitution else
  if (v =? 20) then Ok TerminalType_UnattendedOnlineOnlyFinancialInstitution else
  if (v =? 21) then Ok TerminalType_UnattendedOfflineWithOnlineCapabilitiesFinancialInstitution else
  if (v =? 22) then Ok TerminalType_UnattendedOfflineOnlyFinancialInstitution else
  if (v =? 33) then Ok TerminalType_AttendedOnlineOnlyMerchant else
  if (v =? 34) then Ok TerminalType_AttendedOfflineWithOnlineCapabilitiesMerchant else
  if (v =? 35) then Ok TerminalType_AttendedOfflineOnlyMerchant else
  if (v =? 36) then Ok TerminalType_UnattendedOnlineOnlyMerchant else
  if (v =? 37) then Ok TerminalType_UnattendedOfflineWithOnlineCapabilitiesMerchant else
  if (v =? 38) then Ok TerminalType_UnattendedOfflineOnlyMerchant else
  if (v =? 52) then Ok TerminalType_UnattendedOnlineOnlyCardholder else
  if (v =? 53) then Ok TerminalType_UnattendedOfflineWithOnlineCapabilitiesCardholder else
  if (v =? 54) then Ok TerminalType_UnattendedOfflineOnlyCardholder else
  Err Unrecognised.

(* src/emv/terminal_type.rs:15-50: discriminants *)
Definition terminal_type_to_u8 (x : terminal_type) : N :=
  match x with
  | TerminalType_AttendedOnlineOnlyFinancialInstitution => 17
  | TerminalType_AttendedOfflineWithOnlineCapabilitiesFinancialInstitution => 18
  | TerminalType_AttendedOfflineOnlyFinancialInstitution => 19
  | TerminalType_UnattendedOnlineOnlyFinancialInstitution => 20
  | TerminalType_UnattendedOfflineWithOnlineCapabilitiesFinancialInstitution => 21
  | TerminalType_UnattendedOfflineOnlyFinancialInstitution => 22
  | TerminalType_AttendedOnlineOnlyMerchant => 33
  | TerminalType_AttendedOfflineWithOnlineCapabilitiesMerchant => 34
  | TerminalType_AttendedOfflineOnlyMerchant => 35
  | TerminalType_UnattendedOnlineOnlyMerchant => 36
  | TerminalType_UnattendedOfflineWithOnlineCapabilitiesMerchant => 37
  | TerminalType_UnattendedOfflineOnlyMerchant => 38
  | TerminalType_UnattendedOnlineOnlyCardholder => 52
  | TerminalType_UnattendedOfflineWithOnlineCapabilitiesCardholder => 53
  | TerminalType_UnattendedOfflineOnlyCardholder => 54
  end.

(* src/emv/terminal_type.rs:15-50: display texts *)
Definition terminal_type_text (x : terminal_type) : str :=
  match x with
  | TerminalType_AttendedOnlineOnlyFinancialInstitution => lit "Attended, Online-Only, Controlled by a Financial Institution"
  | TerminalType_AttendedOfflineWithOnlineCapabilitiesFinancialInstitution => lit "Attended, Offline With Online Capabilities, Controlled by a Financial Institution"
  | TerminalType_AttendedOfflineOnlyFinancialInstitution => lit "Attended, Offline-Only, Controlled by a Financial Institution"
  | TerminalType_UnattendedOnlineOnlyFinancialInstitution => lit "Unattended, Online-Only, Controlled by a Financial Institution (ATM if it supports Cash Disbursement)"
  | TerminalType_UnattendedOfflineWithOnlineCapabilitiesFinancialInstitution => lit "Unattended, Offline With Online Capabilities, Controlled by a Financial Institution (ATM if it supports Cash Disbursement)"
  | TerminalType_UnattendedOfflineOnlyFinancialInstitution => lit "Unattended, Offline-Only, Controlled by a Financial Institution (ATM if it supports Cash Disbursement)"
  | TerminalType_AttendedOnlineOnlyMerchant => lit "Attended, Online-Only, Controlled by a Merchant"
  | TerminalType_AttendedOfflineWithOnlineCapabilitiesMerchant => lit "Attended, Offline With Online Capabilities, Controlled by a Merchant"
  | TerminalType_AttendedOfflineOnlyMerchant => lit "Attended, Offline-Only, Controlled by a Merchant"
  | TerminalType_UnattendedOnlineOnlyMerchant => lit "Unattended, Online-Only, Controlled by a Merchant"
  | TerminalType_UnattendedOfflineWithOnlineCapabilitiesMerchant => lit "Unattended, Offline With Online Capabilities, Controlled by a Merchant"
  | TerminalType_UnattendedOfflineOnlyMerchant => lit "Unattended, Offline-Only, Controlled by a Merchant"
  | TerminalType_UnattendedOnlineOnlyCardholder => lit "Unattended, Online-Only, Controlled by the Cardholder (self-attended, home PC, etc.)"
  | TerminalType_UnattendedOfflineWithOnlineCapabilitiesCardholder => lit "Unattended, Offline With Online Capabilities, Controlled by the Cardholder (self-attended, home PC, etc.)"
  | TerminalType_UnattendedOfflineOnlyCardholder => lit "Unattended, Offline-Only, Controlled by the Cardholder (self-attended, home PC, etc.)"
  end.

(** ** [TransactionType] *)

(* src/emv/transaction_type.rs:19-28 ([enum_repr_fallible!]) *)
Inductive transaction_type : Type :=
| TransactionType_Purchase
| TransactionType_CashAdvance
| TransactionType_Void
| TransactionType_CashbackPurchase
| TransactionType_Refund
| TransactionType_BalanceInquiry
| TransactionType_MiniStatement
| TransactionType_FundTransfer.

(* src/emv/transaction_type.rs:19-28: conversion from u8 *)
Definition transaction_type_try_from (v : N) : res transaction_type :=
  if (v =? 0) then Ok TransactionType_Purchase else
  if (v =? 1) then Ok TransactionType_CashAdvance else
  if (v =? 2) then Ok TransactionType_Void else
  if (v =? 9) then Ok TransactionType_CashbackPurchase else
  if (v =? 32) then Ok TransactionType_Refund else
  if (v =? 49) then Ok TransactionType_BalanceInquiry else
  if (v =? 56) then Ok TransactionType_MiniStatement else
  if (v =? 64) then Ok TransactionType_FundTransfer else
  Err Unrecognised.

(* src/emv/transaction_type.rs:19-28: discriminants *)
Definition transaction_type_to_u8 (x : transaction_type) : N :=
  match x with
  | TransactionType_Purchase => 0
  | TransactionType_CashAdvance => 1
  | TransactionType_Void => 2
  | TransactionType_CashbackPurchase => 9
  | TransactionType_Refund => 32
  | TransactionType_BalanceInquiry => 49
  | TransactionType_MiniStatement => 56
  | TransactionType_FundTransfer => 64
  end.

(* src/emv/transaction_type.rs:19-28: display texts *)
Definition transaction_type_text (x : transaction_type) : str :=
  match x with
  | TransactionType_Purchase => lit "Purchase"
  | TransactionType_CashAdvance => lit "Cash Advance"
  | TransactionType_Void => lit "Void"
  | TransactionType_CashbackPurchase => lit "Purchase With Cashback"
  | TransactionType_Refund => lit "Refund"
  | TransactionType_BalanceInquiry => lit "Balance Inquiry"
  | TransactionType_MiniStatement => lit "Mini Statement"
  | TransactionType_FundTransfer => lit "Fund Transfer"
  end.

(** ** [PosEntryMode] *)

(* src/emv/pos_entry_mode.rs:19-37 ([enum_no_repr_fallible!]) *)
Inductive pos_entry_mode : Type :=
| PosEntryMode_Unknown
| PosEntryMode_Manual
| PosEntryMode_MagneticStripe
| PosEntryMode_Barcode
| PosEntryMode_Ocr
| PosEntryMode_ContactIcc
| PosEntryMode_Track1
| PosEntryMode_ContactlessIcc
| PosEntryMode_ContactlessIccMappingApplied
| PosEntryMode_EcommerceIncludingRemoteChip
| PosEntryMode_CredentialsOnFile
| PosEntryMode_Fallback
| PosEntryMode_EcommerceIncludingChip
| PosEntryMode_ViaServer
| PosEntryMode_MagneticStripeFull
| PosEntryMode_ContactlessMagneticStripe
| PosEntryMode_ContactIccUnreliable.

(* src/emv/pos_entry_mode.rs:19-37: conversion from u8 *)
Definition pos_entry_mode_try_from (v : N) : res pos_entry_mode :=
  if (v =? 0) then Ok PosEntryMode_Unknown else
  if (v =? 1) then Ok PosEntryMode_Manual else
  if (v =? 2) then Ok PosEntryMode_MagneticStripe else
  if (v =? 3) then Ok PosEntryMode_Barcode else
  if (v =? 4) then Ok PosEntryMode_Ocr else
  if (v =? 5) then Ok PosEntryMode_ContactIcc else
  if (v =? 6) then Ok PosEntryMode_Track1 else
  if (v =? 7) || (v =? 131) then Ok PosEntryMode_ContactlessIcc else
  if (v =? 8) || (v =? 146) then Ok PosEntryMode_ContactlessIccMappingApplied else
  if (v =? 9) then Ok PosEntryMode_EcommerceIncludingRemoteChip else
  if (v =? 16) then Ok PosEntryMode_CredentialsOnFile else
  if (v =? 128) then Ok PosEntryMode_Fallback else
  if (v =? 129) then Ok PosEntryMode_EcommerceIncludingChip else
  if (v =? 130) then Ok PosEntryMode_ViaServer else
  if (v =? 144) then Ok PosEntryMode_MagneticStripeFull else
  if (v =? 145) then Ok PosEntryMode_ContactlessMagneticStripe else
  if (v =? 149) then Ok PosEntryMode_ContactIccUnreliable else
  Err Unrecognised.

(* src/emv/pos_entry_mode.rs:19-37: display texts *)
Definition pos_entry_mode_text (x : pos_entry_mode) : str :=
  match x with
  | PosEntryMode_Unknown => lit "Unknown"
  | PosEntryMode_Manual => lit "Manual (keyed entry)"
  | PosEntryMode_MagneticStripe => lit "Magnetic Stripe Reader (MSR)"
  | PosEntryMode_Barcode => lit "Barcode"
  | PosEntryMode_Ocr => lit "Optical Character Recognition (OCR)"
  | PosEntryMode_ContactIcc => lit "Integrated Circuit Chip (ICC) - Data Reliable (contact/insert transaction) (CVV can be checked)"
  | PosEntryMode_Track1 => lit "Magnetic Stripe Track 1"
  | PosEntryMode_ContactlessIcc => lit "Contactless Chip (contactless/tap transaction)"
  | PosEntryMode_ContactlessIccMappingApplied => lit "Contactless Chip (contactless/tap transaction) - Contactless Mapping Service Applied"
  | PosEntryMode_EcommerceIncludingRemoteChip => lit "E-Commerce - Including Remote Chip"
  | PosEntryMode_CredentialsOnFile => lit "Merchant Has Cardholder Credentials On File (token, recurring payment, etc.)"
  | PosEntryMode_Fallback => lit "ICC Could Not Process - Fallback to MSR"
  | PosEntryMode_EcommerceIncludingChip => lit "E-Commerce - Including Chip"
  | PosEntryMode_ViaServer => lit "Via a Server (issuer, acquirer, third-party vendor)"
  | PosEntryMode_MagneticStripeFull => lit "Magnetic Stripe Reader (MSR) - Full Track Data - Data Reliable (CVV can be checked)"
  | PosEntryMode_ContactlessMagneticStripe => lit "Contactless Magnetic Stripe Data (MSD)"
  | PosEntryMode_ContactIccUnreliable => lit "Integrated Circuit Chip (ICC) - Data Unreliable (contact/insert transaction) (CVV cannot be checked)"
  end.

(** ** [AuthorisationResponseCode] *)

(* src/emv/authorisation_response_code.rs:18-84 ([enum_no_repr_fallible!]) *)
Inductive authorisation_response_code : Type :=
| AuthorisationResponseCode_Approval
| AuthorisationResponseCode_Call
| AuthorisationResponseCode_CallSpecial
| AuthorisationResponseCode_TerminalIdError
| AuthorisationResponseCode_HoldCall
| AuthorisationResponseCode_Decline
| AuthorisationResponseCode_Error
| AuthorisationResponseCode_HoldCallSpecial
| AuthorisationResponseCode_HonourWithId
| AuthorisationResponseCode_NoOriginalTransaction
| AuthorisationResponseCode_PartialApproval
| AuthorisationResponseCode_ApprovalVip
| AuthorisationResponseCode_InvalidTransaction
| AuthorisationResponseCode_InvalidAmount
| AuthorisationResponseCode_InvalidCardNumber
| AuthorisationResponseCode_NoSuchIssuer
| AuthorisationResponseCode_ApprovedUpdateTrack3
| AuthorisationResponseCode_CustomerCancellation
| AuthorisationResponseCode_CustomerDispute
| AuthorisationResponseCode_RetryTransaction
| AuthorisationResponseCode_InvalidResponse
| AuthorisationResponseCode_NoActionTaken
| AuthorisationResponseCode_SuspectedMalfunction
| AuthorisationResponseCode_InvalidMinimumAmount
| AuthorisationResponseCode_FileUpdateNotSupported
| AuthorisationResponseCode_InvalidIccData
| AuthorisationResponseCode_DuplicateFileUpdateRecord
| AuthorisationResponseCode_FileUpdateFieldEditError
| AuthorisationResponseCode_FileUpdateFileLockedOut
| AuthorisationResponseCode_FileUpdateNotSuccessful
| AuthorisationResponseCode_FormatError
| AuthorisationResponseCode_BankNotSupportedBySwitch
| AuthorisationResponseCode_CompletedPartially
| AuthorisationResponseCode_ExpiredCard
| AuthorisationResponseCode_SuspectedFraud
| AuthorisationResponseCode_CardAcceptorContactAcquirer
| AuthorisationResponseCode_RestrictedCard
| AuthorisationResponseCode_CardAcceptorCallAcquirerSecurity
| AuthorisationResponseCode_AllowablePinRetriesExceeded
| AuthorisationResponseCode_NoCreditAccount
| AuthorisationResponseCode_RequestedFunctionNotSupported
| AuthorisationResponseCode_LostCard
| AuthorisationResponseCode_NoUniversalAccount
| AuthorisationResponseCode_StolenCard
| AuthorisationResponseCode_NoInvestmentAccount
| AuthorisationResponseCode_InsufficientFunds
| AuthorisationResponseCode_NoChequingAccount
| AuthorisationResponseCode_NoSavingsAccount
| AuthorisationResponseCode_IncorrectPin
| AuthorisationResponseCode_NoCardRecord
| AuthorisationResponseCode_TransactionNotAllowedCardholder
| AuthorisationResponseCode_TransactionNotAllowedTerminal
| AuthorisationResponseCode_DebitCashbackWithdrawalLimitDecline
| AuthorisationResponseCode_SecurityViolation
| AuthorisationResponseCode_OriginalAmountIncorrect
| AuthorisationResponseCode_DeclineInsertCard
| AuthorisationResponseCode_HoldCallAtm
| AuthorisationResponseCode_ResponseReceivedTooLate
| AuthorisationResponseCode_IssuerTimeout
| AuthorisationResponseCode_IssuerRoutingProblem
| AuthorisationResponseCode_TransactionNotCompletedLawViolation
| AuthorisationResponseCode_DuplicateTransmission
| AuthorisationResponseCode_ReconciliationError
| AuthorisationResponseCode_SystemMalfunction.

(* src/emv/authorisation_response_code.rs:18-84: conversion from text *)
Definition authorisation_response_code_try_from (v : str) : res authorisation_response_code :=
  if leqb v (lit "00") then Ok AuthorisationResponseCode_Approval else
  if leqb v (lit "01") then Ok AuthorisationResponseCode_Call else
  if leqb v (lit "02") then Ok AuthorisationResponseCode_CallSpecial else
  if leqb v (lit "03") then Ok AuthorisationResponseCode_TerminalIdError else
  if leqb v (lit "04") then Ok AuthorisationResponseCode_HoldCall else
  if leqb v (lit "05") then Ok AuthorisationResponseCode_Decline else
  if leqb v (lit "06") then Ok AuthorisationResponseCode_Error else
  if leqb v (lit "07") then Ok AuthorisationResponseCode_HoldCallSpecial else
  if leqb v (lit "08") then Ok AuthorisationResponseCode_HonourWithId else
  if leqb v (lit "09") then Ok AuthorisationResponseCode_NoOriginalTransaction else
  if leqb v (lit "10") then Ok AuthorisationResponseCode_PartialApproval else
  if leqb v (lit "11") then Ok AuthorisationResponseCode_ApprovalVip else
  if leqb v (lit "12") then Ok AuthorisationResponseCode_InvalidTransaction else
  if leqb v (lit "13") then Ok AuthorisationResponseCode_InvalidAmount else
  if leqb v (lit "14") then Ok AuthorisationResponseCode_InvalidCardNumber else
  if leqb v (lit "15") then Ok AuthorisationResponseCode_NoSuchIssuer else
  if leqb v (lit "16") then Ok AuthorisationResponseCode_ApprovedUpdateTrack3 else
  if leqb v (lit "17") then Ok AuthorisationResponseCode_CustomerCancellation else
  if leqb v (lit "18") then Ok AuthorisationResponseCode_CustomerDispute else
  if leqb v (lit "19") then Ok AuthorisationResponseCode_RetryTransaction else
  if leqb v (lit "20") then Ok AuthorisationResponseCode_InvalidResponse else
  if leqb v (lit "21") then Ok AuthorisationResponseCode_NoActionTaken else
  if leqb v (lit "22") then Ok AuthorisationResponseCode_SuspectedMalfunction else
  if leqb v (lit "23") then Ok AuthorisationResponseCode_InvalidMinimumAmount else
  if leqb v (lit "24") then Ok AuthorisationResponseCode_FileUpdateNotSupported else
  if leqb v (lit "25") then Ok AuthorisationResponseCode_InvalidIccData else
  if leqb v (lit "26") then Ok AuthorisationResponseCode_DuplicateFileUpdateRecord else
  if leqb v (lit "27") then Ok AuthorisationResponseCode_FileUpdateFieldEditError else
  if leqb v (lit "28") then Ok AuthorisationResponseCode_FileUpdateFileLockedOut else
  if leqb v (lit "29") then Ok AuthorisationResponseCode_FileUpdateNotSuccessful else
  if leqb v (lit "30") then Ok AuthorisationResponseCode_FormatError else
  if leqb v (lit "31") then Ok AuthorisationResponseCode_BankNotSupportedBySwitch else
  if leqb v (lit "32") then Ok AuthorisationResponseCode_CompletedPartially else
  if leqb v (lit "33") || leqb v (lit "54") then Ok AuthorisationResponseCode_ExpiredCard else
  if leqb v (lit "34") || leqb v (lit "59") then Ok AuthorisationResponseCode_SuspectedFraud else
  if leqb v (lit "35") || leqb v (lit "60") then Ok AuthorisationResponseCode_CardAcceptorContactAcquirer else
  if leqb v (lit "36") || leqb v (lit "62") then Ok AuthorisationResponseCode_RestrictedCard else
  if leqb v (lit "37") || leqb v (lit "66") then Ok AuthorisationResponseCode_CardAcceptorCallAcquirerSecurity else
  if leqb v (lit "38") || leqb v (lit "75") then Ok AuthorisationResponseCode_AllowablePinRetriesExceeded else
  if leqb v (lit "39") then Ok AuthorisationResponseCode_NoCreditAccount else
  if leqb v (lit "40") then Ok AuthorisationResponseCode_RequestedFunctionNotSupported else
  if leqb v (lit "41") then Ok AuthorisationResponseCode_LostCard else
  if leqb v (lit "42") then Ok AuthorisationResponseCode_NoUniversalAccount else
  if leqb v (lit "43") then Ok AuthorisationResponseCode_StolenCard else
  if leqb v (lit "44") then Ok AuthorisationResponseCode_NoInvestmentAccount else
  if leqb v (lit "51") then Ok AuthorisationResponseCode_InsufficientFunds else
  if leqb v (lit "52") then Ok AuthorisationResponseCode_NoChequingAccount else
  if leqb v (lit "53") then Ok AuthorisationResponseCode_NoSavingsAccount else
  if leqb v (lit "55") then Ok AuthorisationResponseCode_IncorrectPin else
  if leqb v (lit "56") then Ok AuthorisationResponseCode_NoCardRecord else
  if leqb v (lit "57") then Ok AuthorisationResponseCode_TransactionNotAllowedCardholder else
  if leqb v (lit "58") then Ok AuthorisationResponseCode_TransactionNotAllowedTerminal else
  if leqb v (lit "61") then Ok AuthorisationResponseCode_DebitCashbackWithdrawalLimitDecline else
  if leqb v (lit "63") then Ok AuthorisationResponseCode_SecurityViolation else
  if leqb v (lit "64") then Ok AuthorisationResponseCode_OriginalAmountIncorrect else
  if leqb v (lit "65") then Ok AuthorisationResponseCode_DeclineInsertCard else
  if leqb v (lit "67") then Ok AuthorisationResponseCode_HoldCallAtm else
  if leqb v (lit "68") then Ok AuthorisationResponseCode_ResponseReceivedTooLate else
  if leqb v (lit "91") then Ok AuthorisationResponseCode_IssuerTimeout else
  if leqb v (lit "92") then Ok AuthorisationResponseCode_IssuerRoutingProblem else
  if leqb v (lit "93") then Ok AuthorisationResponseCode_TransactionNotCompletedLawViolation else
  if leqb v (lit "94") then Ok AuthorisationResponseCode_DuplicateTransmission else
  if leqb v (lit "95") then Ok AuthorisationResponseCode_ReconciliationError else
  if leqb v (lit "96") then Ok AuthorisationResponseCode_SystemMalfunction else
  Err Unrecognised.

(* src/emv/authorisation_response_code.rs:18-84: display texts *)
Definition authorisation_response_code_text (x : authorisation_response_code) : str :=
  match x with
  | AuthorisationResponseCode_Approval => lit "Approval"
  | AuthorisationResponseCode_Call => lit "Call"
  | AuthorisationResponseCode_CallSpecial => lit "Call - Special Conditions"
  | AuthorisationResponseCode_TerminalIdError => lit "Terminal ID Error"
  | AuthorisationResponseCode_HoldCall => lit "Hold Card - Call"
  | AuthorisationResponseCode_Decline => lit "Decline - Do Not Honour"
  | AuthorisationResponseCode_Error => lit "Error"
  | AuthorisationResponseCode_HoldCallSpecial => lit "Hold Card - Call - Special Conditions"
  | AuthorisationResponseCode_HonourWithId => lit "Honour With Identification"
  | AuthorisationResponseCode_NoOriginalTransaction => lit "No Original Transaction"
  | AuthorisationResponseCode_PartialApproval => lit "Partial Approval"
  | AuthorisationResponseCode_ApprovalVip => lit "Approved (VIP)"
  | AuthorisationResponseCode_InvalidTransaction => lit "Invalid Transaction"
  | AuthorisationResponseCode_InvalidAmount => lit "Invalid Amount"
  | AuthorisationResponseCode_InvalidCardNumber => lit "Invalid Card Number"
  | AuthorisationResponseCode_NoSuchIssuer => lit "No Such Issuer"
  | AuthorisationResponseCode_ApprovedUpdateTrack3 => lit "Approved - Update Track 3"
  | AuthorisationResponseCode_CustomerCancellation => lit "Customer Cancellation"
  | AuthorisationResponseCode_CustomerDispute => lit "Customer Dispute"
  | AuthorisationResponseCode_RetryTransaction => lit "Retry Transaction"
  | AuthorisationResponseCode_InvalidResponse => lit "Invalid Response"
  | AuthorisationResponseCode_NoActionTaken => lit "No Action Taken"
  | AuthorisationResponseCode_SuspectedMalfunction => lit "Suspected Malfunction"
  | AuthorisationResponseCode_InvalidMinimumAmount => lit "Invalid Minimum Amount"
  | AuthorisationResponseCode_FileUpdateNotSupported => lit "File Update Not Supported"
  | AuthorisationResponseCode_InvalidIccData => lit "Invalid ICC Data"
  | AuthorisationResponseCode_DuplicateFileUpdateRecord => lit "Duplicate File Update Record"
  | AuthorisationResponseCode_FileUpdateFieldEditError => lit "File Update Field Edit Error"
  | AuthorisationResponseCode_FileUpdateFileLockedOut => lit "File Update File Locked Out"
  | AuthorisationResponseCode_FileUpdateNotSuccessful => lit "File Update Not Successful"
  | AuthorisationResponseCode_FormatError => lit "Format Error"
  | AuthorisationResponseCode_BankNotSupportedBySwitch => lit "Bank Not Supported By Switch"
  | AuthorisationResponseCode_CompletedPartially => lit "Completed Partially"
  | AuthorisationResponseCode_ExpiredCard => lit "Expired Card"
  | AuthorisationResponseCode_SuspectedFraud => lit "Suspected Fraud"
  | AuthorisationResponseCode_CardAcceptorContactAcquirer => lit "Card Acceptor, Contact Acquirer"
  | AuthorisationResponseCode_RestrictedCard => lit "Restricted Card"
  | AuthorisationResponseCode_CardAcceptorCallAcquirerSecurity => lit "Card Acceptor, Call Acquirer Security"
  | AuthorisationResponseCode_AllowablePinRetriesExceeded => lit "Allowable PIN Retries Exceeded"
  | AuthorisationResponseCode_NoCreditAccount => lit "No Credit Account"
  | AuthorisationResponseCode_RequestedFunctionNotSupported => lit "Requested Function Not Supported"
  | AuthorisationResponseCode_LostCard => lit "Lost Card"
  | AuthorisationResponseCode_NoUniversalAccount => lit "No Universal Account"
  | AuthorisationResponseCode_StolenCard => lit "Stolen Card"
  | AuthorisationResponseCode_NoInvestmentAccount => lit "No Investment Account"
  | AuthorisationResponseCode_InsufficientFunds => lit "Insufficient Funds"
  | AuthorisationResponseCode_NoChequingAccount => lit "No Chequing Account"
  | AuthorisationResponseCode_NoSavingsAccount => lit "No Savings Account"
  | AuthorisationResponseCode_IncorrectPin => lit "Incorrect PIN"
  | AuthorisationResponseCode_NoCardRecord => lit "No Card Record"
  | AuthorisationResponseCode_TransactionNotAllowedCardholder => lit "Transaction Not Allowed For Cardholder"
  | AuthorisationResponseCode_TransactionNotAllowedTerminal => lit "Transaction Not Allowed For Terminal"
  | AuthorisationResponseCode_DebitCashbackWithdrawalLimitDecline => lit "Debit Cashback Withdrawal Limit Decline"
  | AuthorisationResponseCode_SecurityViolation => lit "Security Violation"
  | AuthorisationResponseCode_OriginalAmountIncorrect => lit "Original Amount Incorrect"
  | AuthorisationResponseCode_DeclineInsertCard => lit "Decline - Insert Card (often due to too many contactless transactions)"
  | AuthorisationResponseCode_HoldCallAtm => lit "ATM Hard Card Capture"
  | AuthorisationResponseCode_ResponseReceivedTooLate => lit "Response Received Too Late"
  | AuthorisationResponseCode_IssuerTimeout => lit "Issuer Timeout"
  | AuthorisationResponseCode_IssuerRoutingProblem => lit "Issuer Routing Problem"
  | AuthorisationResponseCode_TransactionNotCompletedLawViolation => lit "Transaction Not Completed - Law Violation"
  | AuthorisationResponseCode_DuplicateTransmission => lit "Duplicate Transmission"
  | AuthorisationResponseCode_ReconciliationError => lit "Reconciliation Error"
  | AuthorisationResponseCode_SystemMalfunction => lit "System Malfunction"
  end.

(** ** [CvMethod] *)

(* src/emv/cv_rule/cv_method.rs:13-25 ([enum_repr_fallible!]) *)
Inductive cv_method : Type :=
| CvMethod_FailCvmProcessing
| CvMethod_PlaintextPin
| CvMethod_EncipheredPinOnline
| CvMethod_PlaintextPinWithSignature
| CvMethod_EncipheredPin
| CvMethod_EncipheredPinWithSignature
| CvMethod_Signature
| CvMethod_NoCvmRequired
| CvMethod_NoCvmPerformed.

(* src/emv/cv_rule/cv_method.rs:13-25: conversion from u8 *)
Definition cv_method_try_from (v : N) : res cv_method :=
  if (v =? 0) then Ok CvMethod_FailCvmProcessing else
  if (v =? 1) then Ok CvMethod_PlaintextPin else
  if (v =? 2) then Ok CvMethod_EncipheredPinOnline else
  if (v =? 3) then Ok CvMethod_PlaintextPinWithSignature else
  if (v =? 4) then Ok CvMethod_EncipheredPin else
  if (v =? 5) then Ok CvMethod_EncipheredPinWithSignature else
  if (v =? 30) then Ok CvMethod_Signature else
  if (v =? 31) then Ok CvMethod_NoCvmRequired else
  if (v =? 63) then Ok CvMethod_NoCvmPerformed else
  Err NonCompliant.

(* src/emv/cv_rule/cv_method.rs:13-25: discriminants *)
Definition cv_method_to_u8 (x : cv_method) : N :=
  match x with
  | CvMethod_FailCvmProcessing => 0
  | CvMethod_PlaintextPin => 1
  | CvMethod_EncipheredPinOnline => 2
  | CvMethod_PlaintextPinWithSignature => 3
  | CvMethod_EncipheredPin => 4
  | CvMethod_EncipheredPinWithSignature => 5
  | CvMethod_Signature => 30
  | CvMethod_NoCvmRequired => 31
  | CvMethod_NoCvmPerformed => 63
  end.

(* src/emv/cv_rule/cv_method.rs:13-25: display texts *)
Definition cv_method_text (x : cv_method) : str :=
  match x with
  | CvMethod_FailCvmProcessing => lit "Fail CVM processing"
  | CvMethod_PlaintextPin => lit "Plaintext PIN verification performed by ICC"
  | CvMethod_EncipheredPinOnline => lit "Enciphered PIN verified online"
  | CvMethod_PlaintextPinWithSignature => lit "Plaintext PIN verification performed by ICC and signature (paper)"
  | CvMethod_EncipheredPin => lit "Enciphered PIN verification performed by ICC"
  | CvMethod_EncipheredPinWithSignature => lit "Enciphered PIN verification performed by ICC and signature (paper)"
  | CvMethod_Signature => lit "Signature (paper)"
  | CvMethod_NoCvmRequired => lit "No CVM required"
  | CvMethod_NoCvmPerformed => lit "No CVM performed"
  end.

(** ** [CvmCondition] *)

(* src/emv/cv_rule/cvm_condition.rs:13-29 ([enum_repr_fallible!]) *)
Inductive cvm_condition : Type :=
| CvmCondition_Always
| CvmCondition_UnattendedCash
| CvmCondition_NotUnattendedNotManualNotCashback
| CvmCondition_TerminalSupported
| CvmCondition_Manual
| CvmCondition_Cashback
| CvmCondition_InApplicationCurrencyUnderX
| CvmCondition_InApplicationCurrencyOverX
| CvmCondition_InApplicationCurrencyUnderY
| CvmCondition_InApplicationCurrencyOverY.

(* src/emv/cv_rule/cvm_condition.rs:13-29: conversion from u8 *)
Definition cvm_condition_try_from (v : N) : res cvm_condition :=
  if (v =? 0) then Ok CvmCondition_Always else
  if (v =? 1) then Ok CvmCondition_UnattendedCash else
  if (v =? 2) then Ok CvmCondition_NotUnattendedNotManualNotCashback else
  if (v =? 3) then Ok CvmCondition_TerminalSupported else
  if (v =? 4) then Ok CvmCondition_Manual else
  if (v =? 5) then Ok CvmCondition_Cashback else
  if (v =? 6) then Ok CvmCondition_InApplicationCurrencyUnderX else
  if (v =? 7) then Ok CvmCondition_InApplicationCurrencyOverX else
  if (v =? 8) then Ok CvmCondition_InApplicationCurrencyUnderY else
  if (v =? 9) then Ok CvmCondition_InApplicationCurrencyOverY else
  Err NonCompliant.

(* src/emv/cv_rule/cvm_condition.rs:13-29: discriminants *)
Definition cvm_condition_to_u8 (x : cvm_condition) : N :=
  match x with
  | CvmCondition_Always => 0
  | CvmCondition_UnattendedCash => 1
  | CvmCondition_NotUnattendedNotManualNotCashback => 2
  | CvmCondition_TerminalSupported => 3
  | CvmCondition_Manual => 4
  | CvmCondition_Cashback => 5
  | CvmCondition_InApplicationCurrencyUnderX => 6
  | CvmCondition_InApplicationCurrencyOverX => 7
  | CvmCondition_InApplicationCurrencyUnderY => 8
  | CvmCondition_InApplicationCurrencyOverY => 9
  end.

(* src/emv/cv_rule/cvm_condition.rs:13-29: display texts *)
Definition cvm_condition_text (x : cvm_condition) : str :=
  match x with
  | CvmCondition_Always => lit "Always"
  | CvmCondition_UnattendedCash => lit "If unattended cash"
  | CvmCondition_NotUnattendedNotManualNotCashback => lit "If not unattended cash and not manual cash and not purchase with cashback"
  | CvmCondition_TerminalSupported => lit "If terminal supports the CVM"
  | CvmCondition_Manual => lit "If manual cash"
  | CvmCondition_Cashback => lit "If purchase with cashback"
  | CvmCondition_InApplicationCurrencyUnderX => lit "If transaction is in the application currency and is under X value"
  | CvmCondition_InApplicationCurrencyOverX => lit "If transaction is in the application currency and is over X value"
  | CvmCondition_InApplicationCurrencyUnderY => lit "If transaction is in the application currency and is under Y value"
  | CvmCondition_InApplicationCurrencyOverY => lit "If transaction is in the application currency and is over Y value"
  end.

(** ** [CvmResult] *)

(* src/emv/cvm_results.rs:22-26 ([enum_repr_fallible!]) *)
Inductive cvm_result : Type :=
| CvmResult_Unknown
| CvmResult_Failed
| CvmResult_Successful.

(* src/emv/cvm_results.rs:22-26: conversion from u8 *)
Definition cvm_result_try_from (v : N) : res cvm_result :=
  if (v =? 0) then Ok CvmResult_Unknown else
  if (v =? 1) then Ok CvmResult_Failed else
  if (v =? 2) then Ok CvmResult_Successful else
  Err NonCompliant.

(* src/emv/cvm_results.rs:22-26: discriminants *)
Definition cvm_result_to_u8 (x : cvm_result) : N :=
  match x with
  | CvmResult_Unknown => 0
  | CvmResult_Failed => 1
  | CvmResult_Successful => 2
  end.

(* src/emv/cvm_results.rs:22-26: display texts *)
Definition cvm_result_text (x : cvm_result) : str :=
  match x with
  | CvmResult_Unknown => lit "Unknown"
  | CvmResult_Failed => lit "Failed"
  | CvmResult_Successful => lit "Successful"
  end.

(** ** [GenAc1ApplicationCryptogramType] *)

(* src/emv/ccd/cvr.rs:77-82 ([enum_repr_fallible!]) *)
Inductive gen_ac1_application_cryptogram_type : Type :=
| GenAc1ApplicationCryptogramType_Aac
| GenAc1ApplicationCryptogramType_Tc
| GenAc1ApplicationCryptogramType_Arqc
| GenAc1ApplicationCryptogramType_Rfu.

(* src/emv/ccd/cvr.rs:77-82: conversion from u8 *)
Definition gen_ac1_application_cryptogram_type_try_from (v : N) : res gen_ac1_application_cryptogram_type :=
  if (v =? 0) then Ok GenAc1ApplicationCryptogramType_Aac else
  if (v =? 1) then Ok GenAc1ApplicationCryptogramType_Tc else
  if (v =? 2) then Ok GenAc1ApplicationCryptogramType_Arqc else
  if (v =? 3) then Ok GenAc1ApplicationCryptogramType_Rfu else
  Err NonCcdCompliant.

(* src/emv/ccd/cvr.rs:77-82: discriminants *)
Definition gen_ac1_application_cryptogram_type_to_u8 (x : gen_ac1_application_cryptogram_type) : N :=
  match x with
  | GenAc1ApplicationCryptogramType_Aac => 0
  | GenAc1ApplicationCryptogramType_Tc => 1
  | GenAc1ApplicationCryptogramType_Arqc => 2
  | GenAc1ApplicationCryptogramType_Rfu => 3
  end.

(* src/emv/ccd/cvr.rs:77-82: display texts *)
Definition gen_ac1_application_cryptogram_type_text (x : gen_ac1_application_cryptogram_type) : str :=
  match x with
  | GenAc1ApplicationCryptogramType_Aac => lit "AAC (Application Authentication Cryptogram)"
  | GenAc1ApplicationCryptogramType_Tc => lit "TC (Transaction Certificate)"
  | GenAc1ApplicationCryptogramType_Arqc => lit "ARQC (Authorization Request Cryptogram)"
  | GenAc1ApplicationCryptogramType_Rfu => lit "RFU (Reserved For Use)"
  end.

(** ** [GenAc2ApplicationCryptogramType] *)

(* src/emv/ccd/cvr.rs:87-92 ([enum_repr_fallible!]) *)
Inductive gen_ac2_application_cryptogram_type : Type :=
| GenAc2ApplicationCryptogramType_Aac
| GenAc2ApplicationCryptogramType_Tc
| GenAc2ApplicationCryptogramType_SecondGenAcNotRequested
| GenAc2ApplicationCryptogramType_Rfu.

(* src/emv/ccd/cvr.rs:87-92: conversion from u8 *)
Definition gen_ac2_application_cryptogram_type_try_from (v : N) : res gen_ac2_application_cryptogram_type :=
  if (v =? 0) then Ok GenAc2ApplicationCryptogramType_Aac else
  if (v =? 1) then Ok GenAc2ApplicationCryptogramType_Tc else
  if (v =? 2) then Ok GenAc2ApplicationCryptogramType_SecondGenAcNotRequested else
  if (v =? 3) then Ok GenAc2ApplicationCryptogramType_Rfu else
  Err NonCcdCompliant.

(* src/emv/ccd/cvr.rs:87-92: discriminants *)
Definition gen_ac2_application_cryptogram_type_to_u8 (x : gen_ac2_application_cryptogram_type) : N :=
  match x with
  | GenAc2ApplicationCryptogramType_Aac => 0
  | GenAc2ApplicationCryptogramType_Tc => 1
  | GenAc2ApplicationCryptogramType_SecondGenAcNotRequested => 2
  | GenAc2ApplicationCryptogramType_Rfu => 3
  end.

(* src/emv/ccd/cvr.rs:87-92: display texts *)
Definition gen_ac2_application_cryptogram_type_text (x : gen_ac2_application_cryptogram_type) : str :=
  match x with
  | GenAc2ApplicationCryptogramType_Aac => lit "AAC (Application Authentication Cryptogram)"
  | GenAc2ApplicationCryptogramType_Tc => lit "TC (Transaction Certificate)"
  | GenAc2ApplicationCryptogramType_SecondGenAcNotRequested => lit "Second GENERATE AC not requested"
  | GenAc2ApplicationCryptogramType_Rfu => lit "RFU (Reserved For Use)"
  end.

(** ** [FormatCode] *)

(* src/emv/ccd/cci.rs:23-25 ([enum_repr_fallible!]) *)
Inductive format_code : Type :=
| FormatCode_A.

(* src/emv/ccd/cci.rs:23-25: conversion from u8 *)
Definition format_code_try_from (v : N) : res format_code :=
  if (v =? 10) then Ok FormatCode_A else
  Err NonCcdCompliant.

(* src/emv/ccd/cci.rs:23-25: discriminants *)
Definition format_code_to_u8 (x : format_code) : N :=
  match x with
  | FormatCode_A => 10
  end.

(* src/emv/ccd/cci.rs:23-25: display texts *)
Definition format_code_text (x : format_code) : str :=
  match x with
  | FormatCode_A => lit "Format A"
  end.

(** ** [CryptogramVersion] *)

(* src/emv/ccd/cci.rs:30-33 ([enum_repr_fallible!]) *)
Inductive cryptogram_version : Type :=
| CryptogramVersion_TripleDes
| CryptogramVersion_Aes.

(* src/emv/ccd/cci.rs:30-33: conversion from u8 *)
Definition cryptogram_version_try_from (v : N) : res cryptogram_version :=
  if (v =? 5) then Ok CryptogramVersion_TripleDes else
  if (v =? 6) then Ok CryptogramVersion_Aes else
  Err NonCcdCompliant.

(* src/emv/ccd/cci.rs:30-33: discriminants *)
Definition cryptogram_version_to_u8 (x : cryptogram_version) : N :=
  match x with
  | CryptogramVersion_TripleDes => 5
  | CryptogramVersion_Aes => 6
  end.

(* src/emv/ccd/cci.rs:30-33: display texts *)
Definition cryptogram_version_text (x : cryptogram_version) : str :=
  match x with
  | CryptogramVersion_TripleDes => lit "Triple DES (3DES)"
  | CryptogramVersion_Aes => lit "AES"
  end.

(** ** [Interchange] *)

(* src/non_emv/service_code.rs:32-38 ([enum_no_repr_infallible!]) *)
Inductive interchange : Type :=
| Interchange_International
| Interchange_National
| Interchange_Private
| Interchange_Test
| Interchange_Rfu.

(* src/non_emv/service_code.rs:32-38: conversion from u8 *)
Definition interchange_from (v : N) : interchange :=
  if (v =? 1) || (v =? 2) then Interchange_International else
  if (v =? 5) || (v =? 6) then Interchange_National else
  if (v =? 7) then Interchange_Private else
  if (v =? 9) then Interchange_Test else
  Interchange_Rfu.

(* src/non_emv/service_code.rs:32-38: display texts *)
Definition interchange_text (x : interchange) : str :=
  match x with
  | Interchange_International => lit "International"
  | Interchange_National => lit "National"
  | Interchange_Private => lit "Private"
  | Interchange_Test => lit "Test"
  | Interchange_Rfu => lit "RFU"
  end.

(** ** [Technology] *)

(* src/non_emv/service_code.rs:43-46 ([enum_no_repr_infallible!]) *)
Inductive technology : Type :=
| Technology_IntegratedCircuitCard
| Technology_MagneticStripeOnly.

(* src/non_emv/service_code.rs:43-46: conversion from u8 *)
Definition technology_from (v : N) : technology :=
  if (v =? 2) || (v =? 6) then Technology_IntegratedCircuitCard else
  Technology_MagneticStripeOnly.

(* src/non_emv/service_code.rs:43-46: display texts *)
Definition technology_text (x : technology) : str :=
  match x with
  | Technology_IntegratedCircuitCard => lit "Integrated circuit card (ICC)"
  | Technology_MagneticStripeOnly => lit "Magnetic stripe only (MSR)"
  end.

(** ** [AuthorisationProcessing] *)

(* src/non_emv/service_code.rs:51-57 ([enum_no_repr_infallible!]) *)
Inductive authorisation_processing : Type :=
| AuthorisationProcessing_Normal
| AuthorisationProcessing_ByIssuer
| AuthorisationProcessing_ByIssuerUnlessExplicitAgreement
| AuthorisationProcessing_Rfu.

(* src/non_emv/service_code.rs:51-57: conversion from u8 *)
Definition authorisation_processing_from (v : N) : authorisation_processing :=
  if (v =? 0) then AuthorisationProcessing_Normal else
  if (v =? 2) then AuthorisationProcessing_ByIssuer else
  if (v =? 4) then AuthorisationProcessing_ByIssuerUnlessExplicitAgreement else
  AuthorisationProcessing_Rfu.

(* src/non_emv/service_code.rs:51-57: display texts *)
Definition authorisation_processing_text (x : authorisation_processing) : str :=
  match x with
  | AuthorisationProcessing_Normal => lit "Normal"
  | AuthorisationProcessing_ByIssuer => lit "By issuer only (no offline authorisation)"
  | AuthorisationProcessing_ByIssuerUnlessExplicitAgreement => lit "By issuer only unless an explicit bilateral agreement applies (no offline authorisation)"
  | AuthorisationProcessing_Rfu => lit "RFU"
  end.

(** ** [AllowedServices] *)

(* src/non_emv/service_code.rs:62-68 ([enum_no_repr_infallible!]) *)
Inductive allowed_services : Type :=
| AllowedServices_NoRestrictions
| AllowedServices_GoodsAndServicesOnly
| AllowedServices_AtmOnly
| AllowedServices_CashOnly
| AllowedServices_Rfu.

(* src/non_emv/service_code.rs:62-68: conversion from u8 *)
Definition allowed_services_from (v : N) : allowed_services :=
  if (v =? 0) || (v =? 1) || (v =? 6) then AllowedServices_NoRestrictions else
  if (v =? 2) || (v =? 5) || (v =? 7) then AllowedServices_GoodsAndServicesOnly else
  if (v =? 3) then AllowedServices_AtmOnly else
  if (v =? 4) then AllowedServices_CashOnly else
  AllowedServices_Rfu.

(* src/non_emv/service_code.rs:62-68: display texts *)
Definition allowed_services_text (x : allowed_services) : str :=
  match x with
  | AllowedServices_NoRestrictions => lit "No restrictions"
  | AllowedServices_GoodsAndServicesOnly => lit "Goods and services only"
  | AllowedServices_AtmOnly => lit "ATM only"
  | AllowedServices_CashOnly => lit "Cash only"
  | AllowedServices_Rfu => lit "RFU"
  end.

(** ** [PinRequirements] *)

(* src/non_emv/service_code.rs:73-77 ([enum_no_repr_infallible!]) *)
Inductive pin_requirements : Type :=
| PinRequirements_PinRequired
| PinRequirements_PromptIfPinpadPresent
| PinRequirements_None.

(* src/non_emv/service_code.rs:73-77: conversion from u8 *)
Definition pin_requirements_from (v : N) : pin_requirements :=
  if (v =? 0) || (v =? 3) || (v =? 5) then PinRequirements_PinRequired else
  if (v =? 6) || (v =? 7) then PinRequirements_PromptIfPinpadPresent else
  PinRequirements_None.

(* src/non_emv/service_code.rs:73-77: display texts *)
Definition pin_requirements_text (x : pin_requirements) : str :=
  match x with
  | PinRequirements_PinRequired => lit "PIN required"
  | PinRequirements_PromptIfPinpadPresent => lit "Prompt for PIN if PIN pad is present"
  | PinRequirements_None => lit "None"
  end.
