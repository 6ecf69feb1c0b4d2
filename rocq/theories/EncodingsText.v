(** parquet/src/encodings.rs:1-78, line by line; the rest of the file are tests. *)
From Coq Require Import String List.
Import ListNotations.
Open Scope string_scope.

Definition encodings_rs_lines : list string := [
"use crate::format::Encoding;";
"use compact_thrift_runtime::{";
"    read_collection_len_and_type, CompactThriftInput, CompactThriftOutput, CompactThriftProtocol,";
"    ThriftError,";
"};";
"use std::fmt::{Debug, Formatter};";
"";
"#[derive(Default, Clone, Copy, PartialEq)]";
"pub struct EncodingSet(u32);";
"";
"impl EncodingSet {";
"    pub fn len(&self) -> usize {";
"        self.0.count_ones() as usize";
"    }";
"";
"    pub fn is_empty(&self) -> bool {";
"        self.0 == 0";
"    }";
"";
"    pub fn iter(&self) -> impl Iterator<Item = Encoding> {";
"        let mut mask = self.0;";
"        std::iter::from_fn(move || {";
"            if mask == 0 {";
"                None";
"            } else {";
"                let encoding = Encoding(mask.trailing_zeros() as i32);";
"                mask &= mask - 1;";
"                Some(encoding)";
"            }";
"        })";
"    }";
"}";
"";
"impl Debug for EncodingSet {";
"    fn fmt(&self, f: &mut Formatter<'_>) -> std::fmt::Result {";
"        f.debug_list().entries(self.iter()).finish()";
"    }";
"}";
"";
"impl<'i> CompactThriftProtocol<'i> for EncodingSet {";
"    const FIELD_TYPE: u8 = 9;";
"";
"    #[inline]";
"    fn fill_thrift<T: CompactThriftInput<'i>>(&mut self, input: &mut T) -> Result<(), ThriftError> {";
"        let (len, element_type) = read_collection_len_and_type(input)?;";
"        if element_type != i32::FIELD_TYPE {";
"            return Err(ThriftError::InvalidType);";
"        }";
"";
"        let mut mask = 0_u32;";
"        for _ in 0..len as usize {";
"            let value = input.read_i32()?;";
"            if value < 0 || value >= 31 {";
"                return Err(ThriftError::InvalidNumber);";
"            }";
"            mask |= 1 << value;";
"        }";
"        self.0 = mask;";
"";
"        Ok(())";
"    }";
"";
"    #[inline]";
"    fn write_thrift<T: CompactThriftOutput>(&self, output: &mut T) -> Result<(), ThriftError> {";
"        let len = self.len();";
"        if len < 15 {";
"            let header = i32::FIELD_TYPE | ((len as u8) << 4);";
"            output.write_byte(header)?;";
"        } else {";
"            output.write_byte(i32::FIELD_TYPE | 0xF0)?;";
"            output.write_len(len)?;";
"        }";
"        for item in self.iter() {";
"            output.write_i32(item.0)?;";
"        }";
"        Ok(())";
"    }";
"}"].
