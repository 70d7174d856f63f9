(* process.go: the opcode table (opsList, process.go:319-508) and the functions that read the
   immediates of each opcode (process.go:1572-2499), as programs over the interface
   ProcessContext (process.go:512-546).  Process runs them with a parserContext (Process.v), the
   table Ops runs them with a docContext (below).  Every function ends in one emit. *)
From Verif Require Import Base Expr.

(* process.go:833-838 *)
Inductive mode : Set := ModeNone | ModeApp | ModeSig.

(* the reading methods of ProcessContext for one immediate *)
Inductive imm : Set :=
| IUint8 (* mustReadUint8 *)
| IInt8 (* mustReadInt8 *)
| IInt (* mustReadInt *)
| IConstInt (* mustReadConstInt *)
| IBytes (* mustReadBytes *)
| ILabel (* mustReadLabel *)
| IAddr (* mustReadAddr *)
| ISignature (* mustReadSignature *)
| ITxnField (* mustReadTxnField *)
| IItxnField (* mustReadItxnField *)
| ITxnaField (* mustReadTxnaField *)
| IJsonRef (* mustReadJsonRef *)
| IEcdsaCurve (* mustReadEcdsaCurveIndex *)
| IGlobal (* mustReadGlobalField *)
| IAssetHolding (* mustReadAssetHoldingField *)
| IAssetParams (* mustReadAssetParamsField *)
| IAppParams (* mustReadAppParamsField *)
| IAcctParams (* mustReadAcctParamsField *)
| IVrf (* mustReadVrfVerifyField *)
| IBlock (* mustReadBlockField *)
| IEcGroup (* mustReadEcGroup *)
| IBase64 (* mustReadBase64Encoding *).

(* what they return: int8, string or []byte, or an unsigned number or field *)
Definition imm_val (k : imm) : Set :=
  match k with
  | IInt8 => Z
  | IBytes | ILabel | IAddr | ISignature => str
  | _ => N
  end.

(* an opcode function of process.go:1577-2494 as a tree of the reads it makes from its context (510-560) *)
Inductive prog : Type :=
| Emit (e : expr)
| MinVersion (v : N) (p : prog)
| ModeMinVersion (m : mode) (v : N) (p : prog)
| Read (k : imm) (name : string) (f : imm_val k -> prog)
| ReadMaybe (name : string) (f : option N -> prog)      (* maybeReadUint8 *)
| ReadInts (name : string) (f : list N -> prog)         (* readUint64Array *)
| ReadBytess (name : string) (f : list str -> prog)     (* readBytesArray *)
| ReadLabels (name : string) (f : list str -> prog).    (* readLabelsArray *)

(* uint8(x) *)
Definition u8 (x : N) : N := (x mod 256)%N.

(* process.go:2006-2014 *)
Definition opReplace : prog :=
  MinVersion 7%N (ReadMaybe "s" (fun s_ => match s_ with Some s => Emit (Replace2Expr s) | None => Emit (Op0 Replace3Expr) end)).
(* process.go:1582-1585 *)
Definition opByte : prog :=
  Read IBytes "value" (fun value => Emit (ByteExpr value 0%N)).
(* process.go:1587-1590 *)
Definition opInt : prog :=
  Read IConstInt "value" (fun value => Emit (IntExpr value)).
(* process.go:1592-1595 *)
Definition opMethod : prog :=
  Read ISignature "signature" (fun value => Emit (MethodExpr value)).
(* process.go:1577-1580 *)
Definition opAddr : prog :=
  Read IAddr "address" (fun value => Emit (AddrExpr value)).
(* process.go:1597-1599 *)
Definition opErr : prog :=
  Emit ErrExpr.
(* process.go:1601-1604 *)
Definition opSHA256 : prog :=
  MinVersion 1%N (Emit (Op0 Sha256Expr)).
(* process.go:1606-1609 *)
Definition opKeccak256 : prog :=
  MinVersion 1%N (Emit (Op0 Keccak256Expr)).
(* process.go:1611-1614 *)
Definition opSHA512_256 : prog :=
  MinVersion 1%N (Emit (Op0 Sha512256Expr)).
(* process.go:1615-1619 *)
Definition opEd25519Verify : prog :=
  ModeMinVersion ModeSig 1%N (ModeMinVersion ModeApp 5%N (Emit (Op0 ED25519VerifyExpr))).
(* process.go:1621-1625 *)
Definition opEcdsaVerify : prog :=
  MinVersion 5%N (Read IEcdsaCurve "curve index" (fun curve => Emit (EcdsaVerifyExpr curve))).
(* process.go:1626-1630 *)
Definition opEcdsaPkDecompress : prog :=
  MinVersion 5%N (Read IEcdsaCurve "curve index" (fun curve => Emit (EcdsaPkDecompressExpr curve))).
(* process.go:1632-1636 *)
Definition opEcdsaPkRecover : prog :=
  MinVersion 5%N (Read IEcdsaCurve "curve index" (fun curve => Emit (EcdsaPkRecoverExpr curve))).
(* process.go:1638-1640 *)
Definition opPlus : prog :=
  Emit (Op0 PlusExpr).
(* process.go:1641-1643 *)
Definition opMinus : prog :=
  Emit (Op0 MinusExpr).
(* process.go:1644-1646 *)
Definition opDiv : prog :=
  Emit (Op0 DivExpr).
(* process.go:1647-1649 *)
Definition opMul : prog :=
  Emit (Op0 MulExpr).
(* process.go:1650-1652 *)
Definition opLt : prog :=
  Emit (Op0 LtExpr).
(* process.go:1653-1655 *)
Definition opGt : prog :=
  Emit (Op0 GtExpr).
(* process.go:1656-1658 *)
Definition opLe : prog :=
  Emit (Op0 LtEqExpr).
(* process.go:1659-1661 *)
Definition opGe : prog :=
  Emit (Op0 GtEqExpr).
(* process.go:1662-1664 *)
Definition opAnd : prog :=
  Emit (Op0 AndExpr).
(* process.go:1665-1667 *)
Definition opOr : prog :=
  Emit (Op0 OrExpr).
(* process.go:1668-1670 *)
Definition opEq : prog :=
  Emit (Op0 EqExpr).
(* process.go:1671-1673 *)
Definition opNeq : prog :=
  Emit (Op0 NeqExpr).
(* process.go:1674-1676 *)
Definition opNot : prog :=
  Emit (Op0 NotExpr).
(* process.go:1677-1679 *)
Definition opLen : prog :=
  Emit (Op0 LenExpr).
(* process.go:1680-1682 *)
Definition opItob : prog :=
  Emit (Op0 ItobExpr).
(* process.go:1683-1685 *)
Definition opBtoi : prog :=
  Emit (Op0 BtoiExpr).
(* process.go:1686-1688 *)
Definition opModulo : prog :=
  Emit (Op0 ModExpr).
(* process.go:1689-1691 *)
Definition opBitOr : prog :=
  Emit (Op0 BitOrExpr).
(* process.go:1692-1694 *)
Definition opBitAnd : prog :=
  Emit (Op0 BitAndExpr).
(* process.go:1695-1697 *)
Definition opBitXor : prog :=
  Emit (Op0 BitXorExpr).
(* process.go:1698-1700 *)
Definition opBitNot : prog :=
  Emit (Op0 BitNotExpr).
(* process.go:1701-1703 *)
Definition opMulw : prog :=
  Emit (Op0 MulwExpr).
(* process.go:1704-1707 *)
Definition opAddw : prog :=
  MinVersion 2%N (Emit (Op0 AddwExpr)).
(* process.go:1708-1711 *)
Definition opDivModw : prog :=
  MinVersion 4%N (Emit (Op0 DivModwExpr)).
(* process.go:1712-1716 *)
Definition opIntConstBlock : prog :=
  ReadInts "value" (fun values => Emit (IntcBlockExpr values)).
(* process.go:1718-1721 *)
Definition opIntConstLoad : prog :=
  Read IUint8 "value" (fun value => Emit (IntcExpr value)).
(* process.go:1723-1725 *)
Definition opIntConst0 : prog :=
  Emit (Op0 Intc0Expr).
(* process.go:1726-1728 *)
Definition opIntConst1 : prog :=
  Emit (Op0 Intc1Expr).
(* process.go:1729-1731 *)
Definition opIntConst2 : prog :=
  Emit (Op0 Intc2Expr).
(* process.go:1732-1734 *)
Definition opIntConst3 : prog :=
  Emit (Op0 Intc3Expr).
(* process.go:1735-1739 *)
Definition opByteConstBlock : prog :=
  ReadBytess "bytes" (fun values => Emit (BytecBlockExpr values)).
(* process.go:1741-1744 *)
Definition opByteConstLoad : prog :=
  Read IUint8 "index" (fun value => Emit (BytecExpr value)).
(* process.go:1746-1748 *)
Definition opByteConst0 : prog :=
  Emit (Op0 Bytec0Expr).
(* process.go:1749-1751 *)
Definition opByteConst1 : prog :=
  Emit (Op0 Bytec1Expr).
(* process.go:1752-1754 *)
Definition opByteConst2 : prog :=
  Emit (Op0 Bytec2Expr).
(* process.go:1755-1757 *)
Definition opByteConst3 : prog :=
  Emit (Op0 Bytec3Expr).
(* process.go:1758-1763 *)
Definition opArg : prog :=
  ModeMinVersion ModeSig 1%N (ModeMinVersion ModeApp 0%N (Read IUint8 "index" (fun value => Emit (ArgExpr value)))).
(* process.go:1764-1768 *)
Definition opArg0 : prog :=
  ModeMinVersion ModeSig 1%N (ModeMinVersion ModeApp 0%N (Emit (Op0 Arg0Expr))).
(* process.go:1769-1773 *)
Definition opArg1 : prog :=
  ModeMinVersion ModeSig 1%N (ModeMinVersion ModeApp 0%N (Emit (Op0 Arg1Expr))).
(* process.go:1774-1778 *)
Definition opArg2 : prog :=
  ModeMinVersion ModeSig 1%N (ModeMinVersion ModeApp 0%N (Emit (Op0 Arg2Expr))).
(* process.go:1779-1783 *)
Definition opArg3 : prog :=
  ModeMinVersion ModeSig 1%N (ModeMinVersion ModeApp 0%N (Emit (Op0 Arg3Expr))).
(* process.go:1784-1793 *)
Definition opTxn : prog :=
  Read ITxnField "f" (fun f => ReadMaybe "i" (fun i_ => match i_ with Some i => Emit (TxnaExpr f i) | None => Emit (TxnExpr f) end)).
(* process.go:1794-1798 *)
Definition opGlobal : prog :=
  Read IGlobal "field" (fun field => Emit (GlobalExpr field)).
(* process.go:1800-1809 *)
Definition opGtxn : prog :=
  Read IUint8 "t" (fun t => Read ITxnField "f" (fun f => ReadMaybe "i" (fun i_ => match i_ with Some i => Emit (GtxnaExpr t f i) | None => Emit (GtxnExpr t f) end))).
(* process.go:1811-1814 *)
Definition opLoad : prog :=
  Read IUint8 "i" (fun value => Emit (LoadExpr value)).
(* process.go:1815-1818 *)
Definition opStore : prog :=
  Read IUint8 "i" (fun value => Emit (StoreExpr value)).
(* process.go:1820-1827 *)
Definition opTxna : prog :=
  MinVersion 2%N (Read ITxnaField "f" (fun f => Read IUint8 "i" (fun i => Emit (TxnaExpr f i)))).
(* process.go:1829-1837 *)
Definition opGtxna : prog :=
  MinVersion 2%N (Read IUint8 "t" (fun t => Read ITxnaField "f" (fun f => Read IUint8 "i" (fun i => Emit (GtxnaExpr t f i))))).
(* process.go:1838-1849 *)
Definition opGtxns : prog :=
  MinVersion 3%N (Read ITxnField "f" (fun f => ReadMaybe "i" (fun i_ => match i_ with Some i => Emit (GtxnsaExpr f i) | None => Emit (GtxnsExpr f) end))).
(* process.go:1851-1858 *)
Definition opGtxnsa : prog :=
  MinVersion 3%N (Read ITxnaField "f" (fun f => Read IUint8 "i" (fun i => Emit (GtxnsaExpr f i)))).
(* process.go:1860-1868 *)
Definition opGload : prog :=
  ModeMinVersion ModeSig 0%N (ModeMinVersion ModeApp 4%N (Read IUint8 "t" (fun t => Read IUint8 "i" (fun value => Emit (GloadExpr t value))))).
(* process.go:1870-1875 *)
Definition opGloads : prog :=
  ModeMinVersion ModeSig 0%N (ModeMinVersion ModeApp 4%N (Read IUint8 "i" (fun value => Emit (GloadsExpr value)))).
(* process.go:1877-1883 *)
Definition opGaid : prog :=
  ModeMinVersion ModeSig 0%N (ModeMinVersion ModeApp 4%N (Read IUint8 "t" (fun t => Emit (GaidExpr t)))).
(* process.go:1884-1889 *)
Definition opGaids : prog :=
  ModeMinVersion ModeSig 0%N (ModeMinVersion ModeApp 4%N (Emit (Op0 GaidsExpr))).
(* process.go:1890-1894 *)
Definition opLoads : prog :=
  MinVersion 5%N (Emit (Op0 LoadsExpr)).
(* process.go:1895-1898 *)
Definition opStores : prog :=
  MinVersion 5%N (Emit (Op0 StoresExpr)).
(* process.go:1899-1902 *)
Definition opBnz : prog :=
  Read ILabel "label" (fun name => Emit (BnzExpr name)).
(* process.go:1903-1907 *)
Definition opBz : prog :=
  MinVersion 2%N (Read ILabel "label" (fun name => Emit (BzExpr name))).
(* process.go:1908-1912 *)
Definition opB : prog :=
  MinVersion 2%N (Read ILabel "label" (fun name => Emit (BExpr name))).
(* process.go:1913-1916 *)
Definition opReturn : prog :=
  MinVersion 2%N (Emit ReturnExpr).
(* process.go:1917-1920 *)
Definition opAssert : prog :=
  MinVersion 3%N (Emit (Op0 AssertExpr)).
(* process.go:1922-1927 *)
Definition opBury : prog :=
  MinVersion 8%N (Read IUint8 "n" (fun n => Emit (BuryExpr n))).
(* process.go:1929-1934 *)
Definition opPopN : prog :=
  MinVersion 8%N (Read IUint8 "n" (fun n => Emit (PopNExpr n))).
(* process.go:1935-1940 *)
Definition opDupN : prog :=
  MinVersion 8%N (Read IUint8 "n" (fun n => Emit (DupNExpr n))).
(* process.go:1942-1944 *)
Definition opPop : prog :=
  Emit (Op0 PopExpr).
(* process.go:1945-1947 *)
Definition opDup : prog :=
  Emit (Op0 DupExpr).
(* process.go:1948-1951 *)
Definition opDup2 : prog :=
  MinVersion 2%N (Emit (Op0 Dup2Expr)).
(* process.go:1952-1956 *)
Definition opDig : prog :=
  MinVersion 3%N (Read IUint8 "n" (fun value => Emit (DigExpr value))).
(* process.go:1957-1960 *)
Definition opSwap : prog :=
  MinVersion 3%N (Emit (Op0 SwapExpr)).
(* process.go:1961-1964 *)
Definition opSelect : prog :=
  MinVersion 3%N (Emit (Op0 SelectExpr)).
(* process.go:1965-1969 *)
Definition opCover : prog :=
  MinVersion 5%N (Read IUint8 "n" (fun value => Emit (CoverExpr value))).
(* process.go:1970-1974 *)
Definition opUncover : prog :=
  MinVersion 5%N (Read IUint8 "index" (fun value => Emit (UncoverExpr value))).
(* process.go:1975-1978 *)
Definition opConcat : prog :=
  MinVersion 2%N (Emit (Op0 ConcatExpr)).
(* process.go:1979-1984 *)
Definition opSubstring : prog :=
  MinVersion 2%N (Read IUint8 "s" (fun start => Read IUint8 "e" (fun end_ => Emit (SubstringExpr start end_)))).
(* process.go:1985-1988 *)
Definition opSubstring3 : prog :=
  MinVersion 2%N (Emit (Op0 Substring3Expr)).
(* process.go:1989-1992 *)
Definition opGetBit : prog :=
  MinVersion 3%N (Emit (Op0 GetBitExpr)).
(* process.go:1993-1996 *)
Definition opSetBit : prog :=
  MinVersion 3%N (Emit (Op0 SetBitExpr)).
(* process.go:1997-2000 *)
Definition opGetByte : prog :=
  MinVersion 3%N (Emit (Op0 GetByteExpr)).
(* process.go:2001-2004 *)
Definition opSetByte : prog :=
  MinVersion 3%N (Emit (Op0 SetByteExpr)).
(* process.go:2016-2025 *)
Definition opExtract : prog :=
  MinVersion 5%N (ReadMaybe "s" (fun s_ => match s_ with Some s => Read IUint8 "l" (fun l => Emit (ExtractExpr s l)) | None => Emit (Op0 Extract3Expr) end)).
(* process.go:2027-2030 *)
Definition opExtract3 : prog :=
  MinVersion 5%N (Emit (Op0 Extract3Expr)).
(* process.go:2031-2034 *)
Definition opExtract16Bits : prog :=
  MinVersion 5%N (Emit (Op0 ExtractUint16Expr)).
(* process.go:2035-2038 *)
Definition opExtract32Bits : prog :=
  MinVersion 5%N (Emit (Op0 ExtractUint32Expr)).
(* process.go:2039-2042 *)
Definition opExtract64Bits : prog :=
  MinVersion 5%N (Emit (Op0 Extract64BitsExpr)).
(* process.go:2043-2047 *)
Definition opReplace2 : prog :=
  MinVersion 7%N (Read IUint8 "s" (fun value => Emit (Replace2Expr value))).
(* process.go:2048-2051 *)
Definition opReplace3 : prog :=
  MinVersion 7%N (Emit (Op0 Replace3Expr)).
(* process.go:2052-2056 *)
Definition opBase64Decode : prog :=
  MinVersion 7%N (Read IBase64 "e" (fun value => Emit (Base64DecodeExpr (u8 value)))).
(* process.go:2057-2061 *)
Definition opJSONRef : prog :=
  MinVersion 7%N (Read IJsonRef "r" (fun value => Emit (JsonRefExpr (u8 value)))).
(* process.go:2062-2067 *)
Definition opBalance : prog :=
  ModeMinVersion ModeSig 0%N (ModeMinVersion ModeApp 2%N (Emit (Op0 BalanceExpr))).
(* process.go:2068-2072 *)
Definition opAppOptedIn : prog :=
  ModeMinVersion ModeSig 0%N (ModeMinVersion ModeApp 2%N (Emit (Op0 AppOptedInExpr))).
(* process.go:2073-2077 *)
Definition opAppLocalGet : prog :=
  ModeMinVersion ModeSig 0%N (ModeMinVersion ModeApp 2%N (Emit (Op0 AppLocalGetExpr))).
(* process.go:2078-2082 *)
Definition opAppLocalGetEx : prog :=
  ModeMinVersion ModeSig 0%N (ModeMinVersion ModeApp 2%N (Emit (Op0 AppLocalGetExExpr))).
(* process.go:2083-2087 *)
Definition opAppGlobalGet : prog :=
  ModeMinVersion ModeSig 0%N (ModeMinVersion ModeApp 2%N (Emit (Op0 AppGlobalGetExpr))).
(* process.go:2088-2092 *)
Definition opAppGlobalGetEx : prog :=
  ModeMinVersion ModeSig 0%N (ModeMinVersion ModeApp 2%N (Emit (Op0 AppGlobalGetExExpr))).
(* process.go:2093-2097 *)
Definition opAppLocalPut : prog :=
  ModeMinVersion ModeSig 0%N (ModeMinVersion ModeApp 2%N (Emit (Op0 AppLocalPutExpr))).
(* process.go:2098-2102 *)
Definition opAppGlobalPut : prog :=
  ModeMinVersion ModeSig 0%N (ModeMinVersion ModeApp 2%N (Emit (Op0 AppGlobalPutExpr))).
(* process.go:2103-2107 *)
Definition opAppLocalDel : prog :=
  ModeMinVersion ModeSig 0%N (ModeMinVersion ModeApp 2%N (Emit (Op0 AppLocalDelExpr))).
(* process.go:2108-2112 *)
Definition opAppGlobalDel : prog :=
  ModeMinVersion ModeSig 0%N (ModeMinVersion ModeApp 2%N (Emit (Op0 AppGlobalDelExpr))).
(* process.go:2113-2120 *)
Definition opAssetHoldingGet : prog :=
  ModeMinVersion ModeSig 0%N (ModeMinVersion ModeApp 2%N (Read IAssetHolding "f" (fun f => Emit (AssetHoldingGetExpr f)))).
(* process.go:2121-2126 *)
Definition opAssetParamsGet : prog :=
  ModeMinVersion ModeSig 0%N (ModeMinVersion ModeApp 2%N (Read IAssetParams "f" (fun field => Emit (AssetParamsGetExpr field)))).
(* process.go:2127-2132 *)
Definition opAppParamsGet : prog :=
  ModeMinVersion ModeSig 0%N (ModeMinVersion ModeApp 5%N (Read IAppParams "f" (fun f => Emit (AppParamsGetExpr f)))).
(* process.go:2133-2138 *)
Definition opAcctParamsGet : prog :=
  ModeMinVersion ModeSig 0%N (ModeMinVersion ModeApp 6%N (Read IAcctParams "f" (fun f => Emit (AcctParamsGetExpr f)))).
(* process.go:2139-2143 *)
Definition opMinBalance : prog :=
  ModeMinVersion ModeSig 0%N (ModeMinVersion ModeApp 3%N (Emit (Op0 MinBalanceExpr))).
(* process.go:2144-2148 *)
Definition opPushBytes : prog :=
  MinVersion 3%N (Read IBytes "value" (fun value => Emit (PushBytesExpr value 0%N))).
(* process.go:2149-2153 *)
Definition opPushInt : prog :=
  MinVersion 3%N (Read IInt "value" (fun value => Emit (PushIntExpr value))).
(* process.go:2154-2160 *)
Definition opPushBytess : prog :=
  MinVersion 8%N (ReadBytess "value" (fun bss => Emit (PushBytessExpr bss))).
(* process.go:2161-2167 *)
Definition opPushInts : prog :=
  MinVersion 8%N (ReadInts "value" (fun iss => Emit (PushIntsExpr iss))).
(* process.go:2168-2171 *)
Definition opEd25519VerifyBare : prog :=
  MinVersion 7%N (Emit (Op0 Ed25519VerifyBareExpr)).
(* process.go:2172-2176 *)
Definition opCallSub : prog :=
  MinVersion 4%N (Read ILabel "label" (fun name => Emit (CallSubExpr name))).
(* process.go:2177-2180 *)
Definition opRetSub : prog :=
  MinVersion 4%N (Emit RetSubExpr).
(* process.go:2181-2187 *)
Definition opProto : prog :=
  MinVersion 8%N (Read IUint8 "a" (fun a => Read IUint8 "r" (fun r => Emit (ProtoExpr a r)))).
(* process.go:2188-2192 *)
Definition opFrameDig : prog :=
  MinVersion 8%N (Read IInt8 "index" (fun value => Emit (FrameDigExpr value))).
(* process.go:2193-2197 *)
Definition opFrameBury : prog :=
  MinVersion 8%N (Read IInt8 "index" (fun value => Emit (FrameBuryExpr value))).
(* process.go:2198-2208 *)
Definition opSwitch : prog :=
  MinVersion 8%N (ReadLabels "label" (fun names => Emit (SwitchExpr names))).
(* process.go:2209-2219 *)
Definition opMatch : prog :=
  MinVersion 8%N (ReadLabels "label" (fun names => Emit (MatchExpr names))).
(* process.go:2220-2223 *)
Definition opShiftLeft : prog :=
  MinVersion 4%N (Emit (Op0 ShlExpr)).
(* process.go:2224-2227 *)
Definition opShiftRight : prog :=
  MinVersion 4%N (Emit (Op0 ShrExpr)).
(* process.go:2228-2231 *)
Definition opSqrt : prog :=
  MinVersion 4%N (Emit (Op0 SqrtExpr)).
(* process.go:2232-2235 *)
Definition opBitLen : prog :=
  MinVersion 4%N (Emit (Op0 BitLenExpr)).
(* process.go:2236-2239 *)
Definition opExp : prog :=
  MinVersion 4%N (Emit (Op0 ExpExpr)).
(* process.go:2240-2243 *)
Definition opExpw : prog :=
  MinVersion 4%N (Emit (Op0 ExpwExpr)).
(* process.go:2244-2247 *)
Definition opBytesSqrt : prog :=
  MinVersion 6%N (Emit (Op0 BsqrtExpr)).
(* process.go:2248-2251 *)
Definition opDivw : prog :=
  MinVersion 6%N (Emit (Op0 DivwExpr)).
(* process.go:2252-2255 *)
Definition opSHA3_256 : prog :=
  MinVersion 7%N (Emit (Op0 Sha3256Expr)).
(* process.go:2256-2260 *)
Definition opEcAdd : prog :=
  MinVersion 9%N (Read IEcGroup "curve" (fun v => Emit (EcAddExpr v))).
(* process.go:2261-2265 *)
Definition opEcScalarMul : prog :=
  MinVersion 9%N (Read IEcGroup "curve" (fun v => Emit (EcScalarMul v))).
(* process.go:2266-2270 *)
Definition opEcPairingCheck : prog :=
  MinVersion 9%N (Read IEcGroup "curve" (fun v => Emit (EcPairingCheckExpr v))).
(* process.go:2272-2276 *)
Definition opEcMultiExp : prog :=
  MinVersion 9%N (Read IEcGroup "curve" (fun v => Emit (EcMultiExpExpr v))).
(* process.go:2278-2282 *)
Definition opEcSubgroupCheck : prog :=
  MinVersion 9%N (Read IEcGroup "curve" (fun v => Emit (EcSubgroupCheckExpr v))).
(* process.go:2284-2288 *)
Definition opEcMapTo : prog :=
  MinVersion 9%N (Read IEcGroup "curve" (fun v => Emit (EcMapToExpr v))).
(* process.go:2290-2293 *)
Definition opBytesPlus : prog :=
  MinVersion 4%N (Emit (Op0 BplusExpr)).
(* process.go:2294-2297 *)
Definition opBytesMinus : prog :=
  MinVersion 4%N (Emit (Op0 BminusExpr)).
(* process.go:2298-2301 *)
Definition opBytesDiv : prog :=
  MinVersion 4%N (Emit (Op0 BdivExpr)).
(* process.go:2302-2305 *)
Definition opBytesMul : prog :=
  MinVersion 4%N (Emit (Op0 BmulExpr)).
(* process.go:2306-2309 *)
Definition opBytesLt : prog :=
  MinVersion 4%N (Emit (Op0 BltExpr)).
(* process.go:2310-2313 *)
Definition opBytesGt : prog :=
  MinVersion 4%N (Emit (Op0 BGtExpr)).
(* process.go:2314-2317 *)
Definition opBytesLe : prog :=
  MinVersion 4%N (Emit (Op0 BytesLeExpr)).
(* process.go:2318-2321 *)
Definition opBytesGe : prog :=
  MinVersion 4%N (Emit (Op0 BytesGeExpr)).
(* process.go:2322-2325 *)
Definition opBytesEq : prog :=
  MinVersion 4%N (Emit (Op0 BytesEqExpr)).
(* process.go:2326-2329 *)
Definition opBytesNeq : prog :=
  MinVersion 4%N (Emit (Op0 BytesNeqExpr)).
(* process.go:2330-2333 *)
Definition opBytesModulo : prog :=
  MinVersion 4%N (Emit (Op0 BytesModuloExpr)).
(* process.go:2334-2337 *)
Definition opBytesBitOr : prog :=
  MinVersion 4%N (Emit (Op0 BytesBitOrExpr)).
(* process.go:2338-2341 *)
Definition opBytesBitAnd : prog :=
  MinVersion 4%N (Emit (Op0 BytesBitAndExpr)).
(* process.go:2342-2345 *)
Definition opBytesBitXor : prog :=
  MinVersion 4%N (Emit (Op0 BytesBitXorExpr)).
(* process.go:2346-2349 *)
Definition opBytesBitNot : prog :=
  MinVersion 4%N (Emit (Op0 BytesBitNotExpr)).
(* process.go:2350-2353 *)
Definition opBytesZero : prog :=
  MinVersion 4%N (Emit (Op0 BytesZeroExpr)).
(* process.go:2354-2358 *)
Definition opLog : prog :=
  ModeMinVersion ModeSig 0%N (ModeMinVersion ModeApp 5%N (Emit (Op0 LogExpr))).
(* process.go:2359-2363 *)
Definition opTxBegin : prog :=
  ModeMinVersion ModeSig 0%N (ModeMinVersion ModeApp 5%N (Emit (Op0 ItxnBeginExpr))).
(* process.go:2364-2369 *)
Definition opItxnField : prog :=
  ModeMinVersion ModeSig 0%N (ModeMinVersion ModeApp 5%N (Read IItxnField "f" (fun f => Emit (ItxnFieldExpr f)))).
(* process.go:2370-2374 *)
Definition opItxnSubmit : prog :=
  ModeMinVersion ModeSig 0%N (ModeMinVersion ModeApp 5%N (Emit (Op0 ItxnSubmitExpr))).
(* process.go:2375-2380 *)
Definition opItxn : prog :=
  ModeMinVersion ModeSig 0%N (ModeMinVersion ModeApp 5%N (Read ITxnField "f" (fun f => Emit (ItxnExpr f)))).
(* process.go:2381-2387 *)
Definition opItxna : prog :=
  ModeMinVersion ModeSig 0%N (ModeMinVersion ModeApp 5%N (Read ITxnaField "f" (fun f => Read IUint8 "i" (fun i => Emit (ItxnaExpr f i))))).
(* process.go:2388-2392 *)
Definition opItxnNext : prog :=
  ModeMinVersion ModeSig 0%N (ModeMinVersion ModeApp 6%N (Emit (Op0 ItxnNextExpr))).
(* process.go:2393-2399 *)
Definition opGitxn : prog :=
  ModeMinVersion ModeSig 0%N (ModeMinVersion ModeApp 6%N (Read IUint8 "t" (fun t => Read ITxnField "f" (fun f => Emit (GitxnExpr t f))))).
(* process.go:2400-2409 *)
Definition opGitxna : prog :=
  ModeMinVersion ModeSig 0%N (ModeMinVersion ModeApp 6%N (Read IInt "t" (fun t => Read ITxnaField "f" (fun f => Read IUint8 "i" (fun i => Emit (GitxnaExpr (u8 t) f i)))))).
(* process.go:2410-2414 *)
Definition opBoxCreate : prog :=
  ModeMinVersion ModeSig 0%N (ModeMinVersion ModeApp 8%N (Emit (Op0 BoxCreateExpr))).
(* process.go:2415-2419 *)
Definition opBoxExtract : prog :=
  ModeMinVersion ModeSig 0%N (ModeMinVersion ModeApp 8%N (Emit (Op0 BoxExtractExpr))).
(* process.go:2420-2424 *)
Definition opBoxReplace : prog :=
  ModeMinVersion ModeSig 0%N (ModeMinVersion ModeApp 8%N (Emit (Op0 BoxReplaceExpr))).
(* process.go:2425-2429 *)
Definition opBoxDel : prog :=
  ModeMinVersion ModeSig 0%N (ModeMinVersion ModeApp 8%N (Emit (Op0 BoxDelExpr))).
(* process.go:2430-2434 *)
Definition opBoxLen : prog :=
  ModeMinVersion ModeSig 0%N (ModeMinVersion ModeApp 8%N (Emit (Op0 BoxLenExpr))).
(* process.go:2435-2439 *)
Definition opBoxGet : prog :=
  ModeMinVersion ModeSig 0%N (ModeMinVersion ModeApp 8%N (Emit (Op0 BoxGetExpr))).
(* process.go:2440-2444 *)
Definition opBoxPut : prog :=
  ModeMinVersion ModeSig 0%N (ModeMinVersion ModeApp 8%N (Emit (Op0 BoxPutExpr))).
(* process.go:2445-2449 *)
Definition opTxnas : prog :=
  MinVersion 5%N (Read ITxnaField "f" (fun f => Emit (TxnasExpr f))).
(* process.go:2450-2455 *)
Definition opGtxnas : prog :=
  MinVersion 5%N (Read IUint8 "t" (fun t => Read ITxnaField "f" (fun f => Emit (GtxnasExpr f t)))).
(* process.go:2456-2460 *)
Definition opGtxnsas : prog :=
  MinVersion 5%N (Read ITxnaField "f" (fun f => Emit (GtxnsasExpr f))).
(* process.go:2461-2466 *)
Definition opArgs : prog :=
  ModeMinVersion ModeSig 0%N (ModeMinVersion ModeApp 5%N (Emit (Op0 ArgsExpr))).
(* process.go:2467-2471 *)
Definition opGloadss : prog :=
  ModeMinVersion ModeSig 0%N (ModeMinVersion ModeApp 6%N (Emit (Op0 GloadssExpr))).
(* process.go:2472-2477 *)
Definition opItxnas : prog :=
  ModeMinVersion ModeSig 0%N (ModeMinVersion ModeApp 6%N (Read ITxnaField "f" (fun f => Emit (ItxnasExpr f)))).
(* process.go:2478-2484 *)
Definition opGitxnas : prog :=
  ModeMinVersion ModeSig 0%N (ModeMinVersion ModeApp 6%N (Read IUint8 "t" (fun t => Read ITxnaField "f" (fun f => Emit (GitxnasExpr t f))))).
(* process.go:2485-2489 *)
Definition opVrfVerify : prog :=
  MinVersion 7%N (Read IVrf "f" (fun f => Emit (VrfVerifyExpr f))).
(* process.go:2490-2494 *)
Definition opBlock : prog :=
  MinVersion 7%N (Read IBlock "f" (fun f => Emit (BlockExpr f))).

(* process.go:319-508 *)
Definition ops_list : list (string * prog) := [
  ("replace", opReplace);
  ("byte", opByte);
  ("int", opInt);
  ("method", opMethod);
  ("addr", opAddr);
  ("err", opErr);
  ("sha256", opSHA256);
  ("keccak256", opKeccak256);
  ("sha512_256", opSHA512_256);
  ("sha256", opSHA256);
  ("keccak256", opKeccak256);
  ("sha512_256", opSHA512_256);
  ("ed25519verify", opEd25519Verify);
  ("ecdsa_verify", opEcdsaVerify);
  ("ecdsa_pk_decompress", opEcdsaPkDecompress);
  ("ecdsa_pk_recover", opEcdsaPkRecover);
  ("+", opPlus);
  ("-", opMinus);
  ("/", opDiv);
  ("*", opMul);
  ("<", opLt);
  (">", opGt);
  ("<=", opLe);
  (">=", opGe);
  ("&&", opAnd);
  ("||", opOr);
  ("==", opEq);
  ("!=", opNeq);
  ("!", opNot);
  ("len", opLen);
  ("itob", opItob);
  ("btoi", opBtoi);
  ("%", opModulo);
  ("|", opBitOr);
  ("&", opBitAnd);
  ("^", opBitXor);
  ("~", opBitNot);
  ("mulw", opMulw);
  ("addw", opAddw);
  ("divmodw", opDivModw);
  ("intcblock", opIntConstBlock);
  ("intc", opIntConstLoad);
  ("intc_0", opIntConst0);
  ("intc_1", opIntConst1);
  ("intc_2", opIntConst2);
  ("intc_3", opIntConst3);
  ("bytecblock", opByteConstBlock);
  ("bytec", opByteConstLoad);
  ("bytec_0", opByteConst0);
  ("bytec_1", opByteConst1);
  ("bytec_2", opByteConst2);
  ("bytec_3", opByteConst3);
  ("arg", opArg);
  ("arg_0", opArg0);
  ("arg_1", opArg1);
  ("arg_2", opArg2);
  ("arg_3", opArg3);
  ("txn", opTxn);
  ("global", opGlobal);
  ("gtxn", opGtxn);
  ("load", opLoad);
  ("store", opStore);
  ("txna", opTxna);
  ("gtxna", opGtxna);
  ("gtxns", opGtxns);
  ("gtxnsa", opGtxnsa);
  ("gload", opGload);
  ("gloads", opGloads);
  ("gaid", opGaid);
  ("gaids", opGaids);
  ("loads", opLoads);
  ("stores", opStores);
  ("bnz", opBnz);
  ("bz", opBz);
  ("b", opB);
  ("return", opReturn);
  ("assert", opAssert);
  ("bury", opBury);
  ("popn", opPopN);
  ("dupn", opDupN);
  ("pop", opPop);
  ("dup", opDup);
  ("dup2", opDup2);
  ("dig", opDig);
  ("swap", opSwap);
  ("select", opSelect);
  ("cover", opCover);
  ("uncover", opUncover);
  ("concat", opConcat);
  ("substring", opSubstring);
  ("substring3", opSubstring3);
  ("getbit", opGetBit);
  ("setbit", opSetBit);
  ("getbyte", opGetByte);
  ("setbyte", opSetByte);
  ("extract", opExtract);
  ("extract3", opExtract3);
  ("extract_uint16", opExtract16Bits);
  ("extract_uint32", opExtract32Bits);
  ("extract_uint64", opExtract64Bits);
  ("replace2", opReplace2);
  ("replace3", opReplace3);
  ("base64_decode", opBase64Decode);
  ("json_ref", opJSONRef);
  ("balance", opBalance);
  ("balance", opBalance);
  ("app_opted_in", opAppOptedIn);
  ("app_local_get", opAppLocalGet);
  ("app_local_get_ex", opAppLocalGetEx);
  ("app_global_get", opAppGlobalGet);
  ("app_global_get_ex", opAppGlobalGetEx);
  ("app_local_put", opAppLocalPut);
  ("app_global_put", opAppGlobalPut);
  ("app_local_del", opAppLocalDel);
  ("app_global_del", opAppGlobalDel);
  ("asset_holding_get", opAssetHoldingGet);
  ("asset_params_get", opAssetParamsGet);
  ("app_params_get", opAppParamsGet);
  ("acct_params_get", opAcctParamsGet);
  ("min_balance", opMinBalance);
  ("pushbytes", opPushBytes);
  ("pushint", opPushInt);
  ("pushbytess", opPushBytess);
  ("pushints", opPushInts);
  ("ed25519verify_bare", opEd25519VerifyBare);
  ("callsub", opCallSub);
  ("retsub", opRetSub);
  ("proto", opProto);
  ("frame_dig", opFrameDig);
  ("frame_bury", opFrameBury);
  ("switch", opSwitch);
  ("match", opMatch);
  ("shl", opShiftLeft);
  ("shr", opShiftRight);
  ("sqrt", opSqrt);
  ("bitlen", opBitLen);
  ("exp", opExp);
  ("expw", opExpw);
  ("bsqrt", opBytesSqrt);
  ("divw", opDivw);
  ("sha3_256", opSHA3_256);
  ("ec_add", opEcAdd);
  ("ec_scalar_mul", opEcScalarMul);
  ("ec_pairing_check", opEcPairingCheck);
  ("ec_multi_exp", opEcMultiExp);
  ("ec_subgroup_check", opEcSubgroupCheck);
  ("ec_map_to", opEcMapTo);
  ("b+", opBytesPlus);
  ("b-", opBytesMinus);
  ("b/", opBytesDiv);
  ("b*", opBytesMul);
  ("b<", opBytesLt);
  ("b>", opBytesGt);
  ("b<=", opBytesLe);
  ("b>=", opBytesGe);
  ("b==", opBytesEq);
  ("b!=", opBytesNeq);
  ("b%", opBytesModulo);
  ("b|", opBytesBitOr);
  ("b&", opBytesBitAnd);
  ("b^", opBytesBitXor);
  ("b~", opBytesBitNot);
  ("bzero", opBytesZero);
  ("log", opLog);
  ("itxn_begin", opTxBegin);
  ("itxn_field", opItxnField);
  ("itxn_submit", opItxnSubmit);
  ("itxn", opItxn);
  ("itxna", opItxna);
  ("itxn_next", opItxnNext);
  ("gitxn", opGitxn);
  ("gitxna", opGitxna);
  ("box_create", opBoxCreate);
  ("box_extract", opBoxExtract);
  ("box_replace", opBoxReplace);
  ("box_del", opBoxDel);
  ("box_len", opBoxLen);
  ("box_get", opBoxGet);
  ("box_put", opBoxPut);
  ("txnas", opTxnas);
  ("gtxnas", opGtxnas);
  ("gtxnsas", opGtxnsas);
  ("args", opArgs);
  ("gloadss", opGloadss);
  ("itxnas", opItxnas);
  ("gitxnas", opGitxnas);
  ("vrf_verify", opVrfVerify);
  ("block", opBlock) ].
